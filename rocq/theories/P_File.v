(** Values and arrays of the binary format do not depend on the machine. *)
From Verif Require Import Prelude M_Template M_Adj M_Parents M_Tags M_File S_File P_Int128.
Local Open Scope Z_scope.

Lemma le_bytes_length n p : length (le_bytes n p) = n.
Proof. revert p. induction n as [|n IH]; intros p; cbn; [reflexivity|]. rewrite IH. reflexivity. Qed.
Lemma le_bytes_byte n p : Forall byte (le_bytes n p).
Proof. revert p. induction n as [|n IH]; intros p; cbn [le_bytes]; constructor; [|apply IH]. unfold byte. pose proof (Z.mod_pos_bound p 256). lia. Qed.
Lemma pow_S n : 2 ^ (8 * Z.of_nat (S n)) = 256 * 2 ^ (8 * Z.of_nat n).
Proof. replace (8 * Z.of_nat (S n)) with (8 + 8 * Z.of_nat n) by lia. rewrite Z.pow_add_r by lia. reflexivity. Qed.
Lemma le_value_bytes n p : 0 <= p < 2 ^ (8 * Z.of_nat n) -> le_value (le_bytes n p) = p.
Proof.
  revert p. induction n as [|n IH]; intros p H; cbn [le_bytes le_value].
  - change (2 ^ _) with 1 in H. lia.
  - rewrite pow_S in H. rewrite IH; [|split; [apply Z.div_pos; lia|apply Z.div_lt_upper_bound; lia]]. pose proof (Z.div_mod p 256). lia.
Qed.
Lemma le_value_range l : Forall byte l -> 0 <= le_value l < 2 ^ (8 * Z.of_nat (length l)).
Proof.
  induction 1 as [|b l Hb F IH]; [cbn; lia|]. cbn [le_value length]. rewrite pow_S. unfold byte in Hb. lia.
Qed.
Lemma le_bytes_value l : Forall byte l -> le_bytes (length l) (le_value l) = l.
Proof.
  induction 1 as [|b l Hb F IH]; [reflexivity|]. cbn [le_value length le_bytes]. unfold byte in Hb. f_equal.
  - replace (b + 256 * le_value l) with (b + le_value l * 256) by lia. rewrite Z.mod_add by lia. apply Z.mod_small. lia.
  - replace (b + 256 * le_value l) with (b + le_value l * 256) by lia. rewrite Z.div_add by lia. rewrite Z.div_small by lia. exact IH.
Qed.
Lemma Forall_rev' {A} (P : A -> Prop) l : Forall P l -> Forall P (rev l).
Proof. rewrite !Forall_forall. intros H x Hx. apply H. rewrite in_rev. exact Hx. Qed.

(** bswap reverses the bytes *)
Lemma land_mask a k : 0 <= k -> Z.land a (Z.shiftl 255 k) = Z.shiftl (Z.land (Z.shiftr a k) 255) k.
Proof.
  intros H. apply Z.bits_inj'. intros i Hi. rewrite Z.land_spec, !Z.shiftl_spec by lia. destruct (Z_lt_dec i k) as [L|L].
  - rewrite !(Z.testbit_neg_r _ (i - k)) by lia. apply Bool.andb_false_r.
  - rewrite Z.land_spec, Z.shiftr_spec by lia. replace (i - k + k) with i by lia. reflexivity.
Qed.
Lemma byte_at a k : 0 <= k -> Z.land (Z.shiftr a k) 255 = (a / 2 ^ k) mod 256.
Proof. intros H. rewrite Z.shiftr_div_pow2 by lia. change 255 with (Z.ones 8). rewrite Z.land_ones by lia. reflexivity. Qed.
Lemma shift_up x i j : 0 <= i -> 0 <= j -> Z.shiftl (Z.shiftl x i) j = x * 2 ^ (i + j).
Proof. intros. rewrite Z.shiftl_shiftl by lia. rewrite Z.shiftl_mul_pow2 by lia. reflexivity. Qed.
Lemma shift_down x i j : 0 <= j <= i -> Z.shiftr (Z.shiftl x i) j = x * 2 ^ (i - j).
Proof. intros. rewrite Z.shiftr_shiftl_l by lia. rewrite Z.shiftl_mul_pow2 by lia. reflexivity. Qed.
Lemma masked_up a k j : 0 <= k -> 0 <= j -> Z.shiftl (Z.land a (Z.shiftl 255 k)) j = ((a / 2 ^ k) mod 256) * 2 ^ (k + j).
Proof. intros. rewrite land_mask, byte_at by lia. apply shift_up; lia. Qed.
Lemma masked_down a k j : 0 <= j <= k -> Z.shiftr (Z.land a (Z.shiftl 255 k)) j = ((a / 2 ^ k) mod 256) * 2 ^ (k - j).
Proof. intros. rewrite land_mask, byte_at by lia. apply shift_down; lia. Qed.
Lemma lor_low b k x : 0 <= k -> 0 <= x < 2 ^ k -> Z.lor (b * 2 ^ k) x = b * 2 ^ k + x.
Proof. intros. rewrite Z.lor_comm, lor_add by lia. lia. Qed.
Lemma div_div' a : 0 <= a -> a / 256 / 256 = a / 65536 /\ a / 256 / 256 / 256 = a / 16777216.
Proof. intros H. rewrite !Z.div_div by lia. split; reflexivity. Qed.
(** the bytes of [a] in the order the formula names them *)
Lemma lor_snoc acc b k : 0 <= k -> 0 <= b < 256 -> Z.lor (acc * 2 ^ (8 + k)) (b * 2 ^ k) = (acc * 256 + b) * 2 ^ k.
Proof.
  intros Hk Hb. rewrite Z.pow_add_r by lia. change (2 ^ 8) with 256. rewrite Z.mul_assoc. rewrite <- !Z.shiftl_mul_pow2 by lia. rewrite <- Z.shiftl_lor. rewrite !Z.shiftl_mul_pow2 by lia. f_equal.
  change 256 with (2 ^ 8). apply lor_low; [lia|]. change (2 ^ 8) with 256. lia.
Qed.
Lemma le_step n p k : 0 <= k -> le_bytes (S n) (p / 2 ^ k) = (p / 2 ^ k) mod 256 :: le_bytes n (p / 2 ^ (k + 8)).
Proof. intros H. cbn [le_bytes]. rewrite Z.div_div by lia. rewrite Z.pow_add_r by lia. reflexivity. Qed.
Lemma bswap32_rev a : 0 <= a < 2 ^ 32 -> bswap32 a = le_value (rev (le_bytes 4 a)).
Proof.
  intros H. unfold bswap32.
  change 0x000000FF with (Z.shiftl 255 0). change 0x0000FF00 with (Z.shiftl 255 8). change 0x00FF0000 with (Z.shiftl 255 16). change 0xFF000000 with (Z.shiftl 255 24).
  rewrite !masked_up, !masked_down by lia. change (0 + 24) with (8 + 16).
  assert (forall k, 0 <= (a / 2 ^ k) mod 256 < 256) as B by (intros; apply Z.mod_pos_bound; lia).
  change (16 - 8) with 8. change (24 - 24) with 0. change (8 + 8) with 16. rewrite (lor_snoc _ _ 16) by (try lia; apply B). rewrite (lor_snoc _ _ 8) by (try lia; apply B). rewrite (lor_snoc _ _ 0) by (try lia; apply B).
  rewrite <- (Z.div_1_r a) at 5. change 1 with (2 ^ 0). rewrite !le_step by lia. cbn [Z.add Pos.add Pos.succ le_bytes rev app le_value].
  generalize ((a / 2 ^ 8) mod 256) ((a / 2 ^ 16) mod 256) ((a / 2 ^ 24) mod 256) ((a / 2 ^ 0) mod 256). change (2 ^ 0) with 1. intros. lia.
Qed.
Lemma bswap64_rev a : 0 <= a < 2 ^ 64 -> bswap64 a = le_value (rev (le_bytes 8 a)).
Proof.
  intros H. unfold bswap64.
  change 0x00000000000000FF with (Z.shiftl 255 0). change 0x000000000000FF00 with (Z.shiftl 255 8). change 0x0000000000FF0000 with (Z.shiftl 255 16). change 0x00000000FF000000 with (Z.shiftl 255 24).
  change 0x000000FF00000000 with (Z.shiftl 255 32). change 0x0000FF0000000000 with (Z.shiftl 255 40). change 0x00FF000000000000 with (Z.shiftl 255 48). change 0xFF00000000000000 with (Z.shiftl 255 56).
  rewrite !masked_up, !masked_down by lia.
  assert (forall k, 0 <= (a / 2 ^ k) mod 256 < 256) as B by (intros; apply Z.mod_pos_bound; lia).
  change (0 + 56) with (8 + 48). change (8 + 40) with 48. change (16 + 24) with 40. change (24 + 8) with 32. change (32 - 8) with 24. change (40 - 24) with 16. change (48 - 40) with 8. change (56 - 56) with 0.
  rewrite (lor_snoc _ _ 48) by (try lia; apply B). rewrite (lor_snoc _ _ 40) by (try lia; apply B). rewrite (lor_snoc _ _ 32) by (try lia; apply B). rewrite (lor_snoc _ _ 24) by (try lia; apply B). rewrite (lor_snoc _ _ 16) by (try lia; apply B). rewrite (lor_snoc _ _ 8) by (try lia; apply B). rewrite (lor_snoc _ _ 0) by (try lia; apply B).
  rewrite <- (Z.div_1_r a) at 9. change 1 with (2 ^ 0). rewrite !le_step by lia. cbn [Z.add Pos.add Pos.succ le_bytes rev app le_value].
  generalize ((a / 2 ^ 8) mod 256) ((a / 2 ^ 16) mod 256) ((a / 2 ^ 24) mod 256) ((a / 2 ^ 32) mod 256) ((a / 2 ^ 40) mod 256) ((a / 2 ^ 48) mod 256) ((a / 2 ^ 56) mod 256) ((a / 2 ^ 0) mod 256). change (2 ^ 0) with 1. intros. lia.
Qed.
Lemma swap_pattern_rev t p : 0 <= p < 2 ^ (8 * Z.of_nat (size_of t)) -> swap_pattern (size_of t) p = le_value (rev (le_bytes (size_of t) p)).
Proof.
  destruct t; cbn [size_of swap_pattern]; intros H.
  - cbn [le_bytes rev app le_value]. rewrite Z.mod_small by (change (2 ^ _) with 256 in H; lia). lia.
  - apply bswap32_rev. exact H.
  - apply bswap64_rev. exact H.
  - apply bswap64_rev. exact H.
Qed.

Lemma pattern_range t v : 0 <= pattern t v < 2 ^ (8 * Z.of_nat (size_of t)).
Proof. apply Z.mod_pos_bound. destruct t; cbn; lia. Qed.
Lemma signed_mod m half p : 0 <= p < m -> (if p <? half then p else p - m) mod m = p.
Proof.
  intros H. destruct (p <? half); [apply Z.mod_small; exact H|]. replace (p - m) with (p + (-1) * m) by lia. rewrite Z.mod_add by lia. apply Z.mod_small; exact H.
Qed.
Lemma mod_signed m half v : 0 <= half -> m = 2 * half -> - half <= v < half -> (if v mod m <? half then v mod m else v mod m - m) = v.
Proof.
  intros H -> B. destruct (Z_lt_dec v 0) as [L|L].
  - replace (v mod (2 * half)) with (v + 2 * half) by (rewrite <- (Z.mod_add v 1 (2 * half)) by lia; rewrite Z.mod_small; lia). destruct (Z.ltb_spec (v + 2 * half) half); lia.
  - rewrite Z.mod_small by lia. destruct (Z.ltb_spec v half); lia.
Qed.
Lemma pattern_of t p : 0 <= p < 2 ^ (8 * Z.of_nat (size_of t)) -> pattern t (of_pattern t p) = p.
Proof.
  intros H. unfold pattern, of_pattern. destruct t; try (apply Z.mod_small; exact H); cbv zeta; apply signed_mod; exact H.
Qed.
Lemma of_pattern_in t v : in_range t v -> of_pattern t (pattern t v) = v.
Proof.
  intros H. unfold pattern, of_pattern. destruct t; cbn [in_range] in *; cbv zeta.
  4: apply Z.mod_small; change (2 ^ _) with 18446744073709551616; lia.
  all: apply mod_signed; [cbn; lia|reflexivity|].
  - change (2 ^ _) with 128. lia.
  - change (2 ^ _) with 2147483648. lia.
  - change (2 ^ _) with 9223372036854775808. lia.
Qed.
Lemma cast_in t v : in_range t v -> cast t v = v.
Proof. exact (of_pattern_in t v). Qed.

(** what is written and read, whatever the machine *)
Definition put (t : scalar) (v : Z) : list Z := le_bytes (size_of t) (pattern t v).
Definition got (t : scalar) (l : list Z) : Z := of_pattern t (le_value l).
Lemma put_length t v : length (put t v) = size_of t.
Proof. apply le_bytes_length. Qed.
Lemma put_zlen t v : zlen (put t v) = Z.of_nat (size_of t).
Proof. unfold zlen. rewrite put_length. reflexivity. Qed.
Lemma put_byte t v : Forall byte (put t v).
Proof. apply le_bytes_byte. Qed.
Lemma got_put t v : in_range t v -> got t (put t v) = v.
Proof. intros H. unfold got, put. rewrite le_value_bytes by apply pattern_range. apply of_pattern_in, H. Qed.
Lemma swaps m : needs_swapping m = negb (little_endian m).
Proof. unfold needs_swapping, is_little_endian_cpu. destruct (little_endian m); reflexivity. Qed.
Lemma rev_value_range t p : 0 <= le_value (rev (le_bytes (size_of t) p)) < 2 ^ (8 * Z.of_nat (size_of t)).
Proof.
  pose proof (le_value_range (rev (le_bytes (size_of t) p)) (Forall_rev' _ _ (le_bytes_byte _ _))) as H. rewrite rev_length, le_bytes_length in H. exact H.
Qed.
Lemma write_value_put m t v : write_value m t v (needs_swapping m) = put t v.
Proof.
  rewrite swaps. unfold write_value, mem_bytes, put. destruct (little_endian m); cbn [negb]; [reflexivity|].
  unfold swap_value. rewrite swap_pattern_rev by apply pattern_range. rewrite pattern_of by apply rev_value_range.
  pose proof (le_bytes_value (rev (le_bytes (size_of t) (pattern t v))) (Forall_rev' _ _ (le_bytes_byte _ _))) as E. rewrite rev_length, le_bytes_length in E. rewrite E. apply rev_involutive.
Qed.
Lemma read_one m t l : Forall byte l -> length l = size_of t ->
  (if needs_swapping m then swap_value t (of_pattern t (mem_value (little_endian m) l)) else of_pattern t (mem_value (little_endian m) l)) = got t l.
Proof.
  intros Hb Hl. rewrite swaps. unfold mem_value, got. destruct (little_endian m); cbn [negb]; [reflexivity|].
  assert (0 <= le_value (rev l) < 2 ^ (8 * Z.of_nat (size_of t))) as R by (rewrite <- Hl, <- rev_length; apply le_value_range, Forall_rev', Hb).
  unfold swap_value. rewrite pattern_of by exact R. rewrite swap_pattern_rev by exact R. pose proof (le_bytes_value (rev l) (Forall_rev' _ _ Hb)) as E. rewrite rev_length, Hl in E. rewrite E, rev_involutive. reflexivity.
Qed.
Definition put_array (t : scalar) (a : list Z) : list Z := flat_map (put t) a.
Lemma array_bytes_put m t a : array_bytes m t (swap_array t a (needs_swapping m)) = put_array t a.
Proof.
  unfold array_bytes, swap_array, put_array. induction a as [|v a IH]; [destruct (needs_swapping m); reflexivity|].
  cbn [flat_map]. rewrite <- IH, <- (write_value_put m t v). unfold write_value. destruct (needs_swapping m); reflexivity.
Qed.
Lemma put_array_byte t a : Forall byte (put_array t a).
Proof. apply Forall_forall. intros x Hx. apply in_flat_map in Hx as (v & _ & Hx). pose proof (put_byte t v) as F. rewrite Forall_forall in F. apply F, Hx. Qed.
Lemma put_array_zlen t a : zlen (put_array t a) = zlen a * Z.of_nat (size_of t).
Proof. induction a as [|v a IH]; [reflexivity|]. unfold put_array in *. cbn [flat_map]. rewrite zlen_app, IH, put_zlen, zlen_cons. lia. Qed.
(** the array that some bytes are *)
Fixpoint got_array (t : scalar) (n : nat) (l : list Z) : list Z := match n with O => [] | S n => got t (firstn (size_of t) l) :: got_array t n (skipn (size_of t) l) end.
Lemma Forall_firstn {A} (P : A -> Prop) n l : Forall P l -> Forall P (firstn n l).
Proof. revert n. induction l as [|x l IH]; intros [|n] H; cbn; try constructor; inversion H; auto. Qed.
Lemma Forall_skipn {A} (P : A -> Prop) n l : Forall P l -> Forall P (skipn n l).
Proof. revert n. induction l as [|x l IH]; intros [|n] H; cbn; try constructor; inversion H; auto. Qed.
Lemma array_values_got m t n l : Forall byte l -> length l = (n * size_of t)%nat -> swap_array t (array_values m t n l) (needs_swapping m) = got_array t n l.
Proof.
  revert l. induction n as [|n IH]; intros l Hb Hl; [unfold swap_array; cbn; destruct (needs_swapping m); reflexivity|].
  cbn [array_values got_array]. rewrite <- IH; [|apply Forall_skipn, Hb|rewrite skipn_length; lia].
  rewrite <- (read_one m t (firstn (size_of t) l)); [|apply Forall_firstn, Hb|rewrite firstn_length; lia]. unfold swap_array. destruct (needs_swapping m); reflexivity.
Qed.
Lemma got_put_array t a : Forall (in_range t) a -> got_array t (length a) (put_array t a) = a.
Proof.
  induction 1 as [|v a Hv F IH]; [reflexivity|]. unfold put_array in *. cbn [length got_array flat_map]. f_equal.
  - rewrite firstn_app, put_length, Nat.sub_diag, firstn_O, app_nil_r. rewrite <- (put_length t v), firstn_all. apply got_put, Hv.
  - rewrite skipn_app, put_length, Nat.sub_diag. rewrite <- (put_length t v) at 1. rewrite skipn_all. exact IH.
Qed.
Lemma got_array_length t n l : length (got_array t n l) = n.
Proof. revert l. induction n as [|n IH]; intros l; cbn; [reflexivity|]. rewrite IH. reflexivity. Qed.
