(** Model of src/Omega_h_base64.cpp.  Bytes ([unsigned char]) are [Z] in [0,256);
    a [char] is given by its byte, and a [char] with the top bit set is negative on the
    platforms modelled (x86-64, signed char). *)
From Verif Require Import Prelude.
Local Open Scope Z_scope.

(** src/Omega_h_base64.cpp:11-15 value_to_char *)
Definition value_to_char : list Z :=
  map (fun k => 65 + k) (zrange 26) ++      (* 'A'..'Z' *)
  map (fun k => 97 + k) (zrange 26) ++      (* 'a'..'z' *)
  map (fun k => 48 + k) (zrange 10) ++      (* '0'..'9' *)
  [43; 47].                                 (* '+' '/' *)

(** src/Omega_h_base64.cpp:17-38 char_to_value, copied entry by entry
    (four rows of 64 entries). *)
Definition char_to_value : list Z :=
  [255;255;255;255;255;255;255;
   255;255;255;255;255;255;255;255;255;255;255;255;255;255;255;
   255;255;255;255;255;255;255;255;255;255;255;255;255;255;255;
   255;255;255;255;255;255;62;255;255;255;63;52;53;54;55;56;57;
   58;59;60;61;255;255;255;0;255;255;

   255;0;1;2;3;4;5;6;7;8;9;10;11;12;13;14;15;16;17;18;19;
   20;21;22;23;24;25;255;255;255;255;255;255;26;27;28;29;30;
   31;32;33;34;35;36;37;38;39;40;41;42;43;44;45;46;47;48;49;
   50;51;255;255;255;255;255] ++ repeat 255 64 ++ repeat 255 64.

(** src/Omega_h_base64.cpp:40-45 encode_3; [off] is the pointer offset of [in].  The
    four characters are returned instead of stored through [out]. *)
Definition encode_3 (d : list Z) (off : Z) : res (list Z) :=
  a <- zget d off ;;
  b <- zget d (off + 1) ;;
  c <- zget d (off + 2) ;;
  c0 <- zget value_to_char (Z.shiftr a 2) ;;
  c1 <- zget value_to_char (Z.lor (Z.land (Z.shiftl a 4) 48) (Z.shiftr b 4)) ;;
  c2 <- zget value_to_char (Z.lor (Z.land (Z.shiftl b 2) 60) (Z.shiftr c 6)) ;;
  c3 <- zget value_to_char (Z.land c 63) ;;
  Ok [c0; c1; c2; c3].

(** src/Omega_h_base64.cpp:47-52 encode_2 *)
Definition encode_2 (d : list Z) (off : Z) : res (list Z) :=
  a <- zget d off ;;
  b <- zget d (off + 1) ;;
  c0 <- zget value_to_char (Z.shiftr a 2) ;;
  c1 <- zget value_to_char (Z.lor (Z.land (Z.shiftl a 4) 48) (Z.shiftr b 4)) ;;
  c2 <- zget value_to_char (Z.land (Z.shiftl b 2) 60) ;;
  Ok [c0; c1; c2; 61].

(** src/Omega_h_base64.cpp:54-59 encode_1 *)
Definition encode_1 (d : list Z) (off : Z) : res (list Z) :=
  a <- zget d off ;;
  c0 <- zget value_to_char (Z.shiftr a 2) ;;
  c1 <- zget value_to_char (Z.land (Z.shiftl a 4) 48) ;;
  Ok [c0; c1; 61; 61].

(** U(in[i]) (src/Omega_h_base64.cpp:61-64,74): a [char] converted to [unsigned];
    a negative [char] becomes 2^32 + c - 256. *)
Definition to_unsigned (c : Z) : Z := if c <? 128 then c else 2 ^ 32 + c - 256.

(** one table lookup of decode_4 (src/Omega_h_base64.cpp:74-75) *)
Definition decode_char (t : list Z) (i : Z) : res Z :=
  c <- zget t i ;;
  v <- zget char_to_value (to_unsigned c) ;;
  _ <- check (v <? 64) ;;
  Ok v.

(** src/Omega_h_base64.cpp:71-90 decode_4; returns the [min nout 3] (at least 1) bytes
    stored. *)
Definition decode_4 (t : list Z) (off : Z) (nout : Z) : res (list Z) :=
  v0 <- decode_char t off ;;
  v1 <- decode_char t (off + 1) ;;
  v2 <- decode_char t (off + 2) ;;
  v3 <- decode_char t (off + 3) ;;
  let o0 := Z.lor (Z.land (Z.shiftl v0 2) 252) (Z.land (Z.shiftr v1 4) 3) in
  if nout <? 2 then Ok [o0 mod 256] else
  let o1 := Z.lor (Z.land (Z.shiftl v1 4) 240) (Z.land (Z.shiftr v2 2) 15) in
  if nout <? 3 then Ok [o0 mod 256; o1 mod 256] else
  let o2 := Z.lor (Z.land (Z.shiftl v2 6) 192) (Z.land (Z.shiftr v3 0) 63) in
  Ok [o0 mod 256; o1 mod 256; o2 mod 256].

(** src/Omega_h_base64.cpp:94-100 encoded_size *)
Definition encoded_size (size : Z) : Z :=
  let quot := size / 3 in
  let rem := size mod 3 in
  let nunits := if rem =? 0 then quot else quot + 1 in
  nunits * 4.

(** src/Omega_h_base64.cpp:102-121 encode.  The C++ code writes the groups side by side into a
    string of encoded_size characters; the model concatenates them. *)
Definition encode (d : list Z) : res (list Z) :=
  let size := zlen d in
  let quot := size / 3 in
  let rem := size mod 3 in
  groups <- mapM (fun i => encode_3 d (i * 3)) (zrange quot) ;;
  tail <- (if rem =? 0 then Ok []
           else if rem =? 1 then encode_1 d (quot * 3)
           else encode_2 d (quot * 3)) ;;
  Ok (concat groups ++ tail).

(** src/Omega_h_base64.cpp:123-129 decode *)
Definition decode (t : list Z) (size : Z) : res (list Z) :=
  let quot := size / 3 in
  let rem := size mod 3 in
  groups <- mapM (fun i => decode_4 t (i * 4) 3) (zrange quot) ;;
  tail <- (if rem =? 0 then Ok [] else decode_4 t (quot * 4) rem) ;;
  Ok (concat groups ++ tail).

(** src/Omega_h_base64.cpp:131-141 read_encoded on a stream of bytes; returns the text and
    the rest of the stream.  The terminating character is consumed, as [get] does; at the end
    of the stream [get] returns EOF = -1 and nothing is consumed. *)
Fixpoint read_encoded (f : list Z) : res (list Z * list Z) :=
  match f with
  | [] => Ok ([], [])
  | c :: f' =>
      if (c <? 0) || (c >? 127) then Ok ([], f')
      else
        v <- zget char_to_value c ;;
        if v >? 63 then Ok ([], f')
        else '(out, rest) <- read_encoded f' ;; Ok (c :: out, rest)
  end.
