(** Untransposing, and the position along the curve as one number. *)
From Verif Require Import Prelude M_Array M_Hilbert S_Hilbert P_Array P_Map P_Hilbert.
Local Open Scope Z_scope.

(** * bits of the position *)
Lemma testbit_low_high h d b j : 0 <= b -> 0 <= d < 2 ^ b -> 0 <= j -> Z.testbit (h * 2 ^ b + d) j = if j <? b then Z.testbit d j else Z.testbit h (j - b).
Proof.
  intros Hb Hd Hj. assert (h * 2 ^ b + d = Z.lor (Z.shiftl h b) d) as ->.
  { rewrite <- Z.add_nocarry_lxor || idtac. rewrite <- Z.lxor_lor.
    - rewrite <- Z.add_nocarry_lxor; [rewrite Z.shiftl_mul_pow2 by exact Hb; reflexivity|].
      apply Z.bits_inj'. intros k Hk. rewrite Z.land_spec, Z.bits_0. destruct (Z.lt_ge_cases k b); [rewrite Z.shiftl_spec_low by lia; reflexivity|]. rewrite (bits_small d b Hd k) by lia. apply andb_false_r.
    - apply Z.bits_inj'. intros k Hk. rewrite Z.land_spec, Z.bits_0. destruct (Z.lt_ge_cases k b); [rewrite Z.shiftl_spec_low by lia; reflexivity|]. rewrite (bits_small d b Hd k) by lia. apply andb_false_r. }
  rewrite Z.lor_spec. destruct (Z.ltb_spec j b); [rewrite Z.shiftl_spec_low by lia; reflexivity|]. rewrite (bits_small d b Hd j) by lia. rewrite Z.shiftl_spec by lia. apply orb_false_r.
Qed.

Lemma zlen_snoc {A} (l : list A) x : zlen (l ++ [x]) = zlen l + 1.
Proof. rewrite zlen_app. reflexivity. Qed.
Lemma position_snoc b D d : position b (D ++ [d]) = position b D * 2 ^ b + d.
Proof. unfold position. rewrite fold_left_app. reflexivity. Qed.
Lemma position_range b D : 0 <= b -> Forall (fun x => 0 <= x < 2 ^ b) D -> 0 <= position b D < 2 ^ (b * zlen D).
Proof.
  intros Hb. induction D as [|d D IH] using rev_ind; intros F; [cbn; rewrite Z.mul_0_r; cbn; lia|].
  apply Forall_app in F as [F Fd]. inversion Fd as [|? ? Hd _]; subst. rewrite position_snoc, zlen_snoc. specialize (IH F).
  replace (b * (zlen D + 1)) with (b * zlen D + b) by lia. pose proof (zlen_nonneg D). assert (0 <= b * zlen D) by nia. rewrite (Z.pow_add_r 2 (b * zlen D) b) by lia. nia.
Qed.
Lemma position_bit b D k m : 0 <= b -> Forall (fun x => 0 <= x < 2 ^ b) D -> 0 <= m < b -> forall d, zget D k = Ok d ->
  Z.testbit (position b D) (b * (zlen D - 1 - k) + m) = Z.testbit d m.
Proof.
  intros Hb. induction D as [|x D IH] using rev_ind; intros F Hm d E; [pose proof (zget_bounds _ _ _ E) as Bd; cbn in Bd; lia|].
  apply Forall_app in F as [F Fd]. inversion Fd as [|? ? Hd _]; subst. rewrite position_snoc. pose proof (zget_bounds _ _ _ E) as B. rewrite zlen_snoc in *.
  destruct (Z.eq_dec k (zlen D)) as [->|Hne].
  - rewrite zget_app_r in E by lia. rewrite Z.sub_diag in E. cbn in E. injection E as ->. replace (b * (zlen D + 1 - 1 - zlen D) + m) with m by lia.
    rewrite testbit_low_high by lia. destruct (Z.ltb_spec m b); [reflexivity|lia].
  - rewrite zget_app_l in E by lia. assert (0 <= b * (zlen D - 1 - k)) by nia. rewrite testbit_low_high by nia.
    destruct (Z.ltb_spec (b * (zlen D + 1 - 1 - k) + m) b); [nia|]. replace (b * (zlen D + 1 - 1 - k) + m - b) with (b * (zlen D - 1 - k) + m) by lia. apply IH; assumption.
Qed.
Lemma position_inj b n D D' : 1 <= b -> words b n D -> words b n D' -> position b D = position b D' -> D = D'.
Proof.
  intros Hb [L F] [L' F'] E. apply list_eq_zget; [lia|]. intros k Hk.
  destruct (zget_in_range D k Hk) as (d & Ed). destruct (zget_in_range D' k ltac:(lia)) as (d' & Ed'). rewrite Ed, Ed'. f_equal.
  rewrite Forall_forall in F, F'. pose proof (F d (zget_In _ _ _ Ed)) as Hd. pose proof (F' d' (zget_In _ _ _ Ed')) as Hd'.
  apply Z.bits_inj'. intros m Hm. destruct (Z.lt_ge_cases m b) as [Hmb|Hmb]; [|rewrite (bits_small d b Hd m Hmb), (bits_small d' b Hd' m Hmb); reflexivity].
  rewrite <- (position_bit b D k m) with (d := d); [|lia|apply Forall_forall, F|lia|exact Ed].
  rewrite <- (position_bit b D' k m) with (d := d'); [|lia|apply Forall_forall, F'|lia|exact Ed']. rewrite E, L, L'. reflexivity.
Qed.
Lemma position_surj b n : 0 <= b -> 0 <= n -> forall h, 0 <= h < 2 ^ (b * n) -> exists D, words b n D /\ position b D = h.
Proof.
  intros Hb Hn. rewrite <- (Z2Nat.id n) by exact Hn. clear Hn. induction (Z.to_nat n) as [|k IH]; intros h Hh.
  - exists []. split; [split; [reflexivity|constructor]|]. cbn in *. rewrite Z.mul_0_r in Hh. cbn in Hh. lia.
  - replace (b * Z.of_nat (S k)) with (b * Z.of_nat k + b) in Hh by lia. assert (0 <= b * Z.of_nat k) by nia. rewrite (Z.pow_add_r 2 (b * Z.of_nat k) b) in Hh by lia. pose proof (pow2_pos b Hb) as Hp.
    destruct (IH (h / 2 ^ b)) as (D & [L F] & E).
    { split; [apply Z.div_pos; lia|]. apply Z.div_lt_upper_bound; lia. }
    exists (D ++ [h mod 2 ^ b]). split; [split|].
    + rewrite zlen_snoc. lia.
    + apply Forall_app. split; [exact F|]. constructor; [apply Z.mod_pos_bound; exact Hp|constructor].
    + rewrite position_snoc, E. rewrite Z.mul_comm. symmetry. apply Z.div_mod. lia.
Qed.

(** * untranspose *)
(** the i-th bit, from the top, of the position whose transposed words are X *)
Definition hbit (X : list Z) (b n i : Z) : bool := match zget X (i mod n) with Ok x => Z.testbit x (b - 1 - i / n) | _ => false end.

Lemma untranspose_ok b n X : 1 <= n -> 1 <= b <= 64 -> words b n X -> exists D, untranspose X b n = Ok D /\ words b n D /\
  forall k d m, zget D k = Ok d -> 0 <= m < b -> Z.testbit d m = hbit X b n (k * b + (b - 1 - m)).
Proof.
  intros Hn Hb [L F]. unfold untranspose, forM.
  assert (forall c, 0 <= c <= b * n -> exists D, foldM (fun out i => x <- zget X (i mod n) ;; bit <- shr x (b - 1 - i / n) ;; v <- shl (Z.land bit 1) (b - 1 - i mod b) ;; o <- zget out (i / b) ;; zset out (i / b) (Z.lor o v))
    (zrange c) (repeat 0 (Z.to_nat n)) = Ok D /\ words b n D /\
    forall k d m, zget D k = Ok d -> 0 <= m < b -> Z.testbit d m = (k * b + (b - 1 - m) <? c) && hbit X b n (k * b + (b - 1 - m))) as K.
  { intros c Hc. rewrite <- (Z2Nat.id c) in * by lia. induction (Z.to_nat c) as [|c' IH].
    - exists (repeat 0 (Z.to_nat n)). split; [reflexivity|]. split.
      + split; [rewrite zlen_repeat; lia|]. apply Forall_forall. intros x Hx. apply repeat_spec in Hx. subst x. pose proof (pow2_pos b ltac:(lia)). lia.
      + intros k d m E Hm. pose proof (zget_bounds _ _ _ E) as B. apply zget_In, repeat_spec in E. subst d. rewrite Z.bits_0. symmetry. apply andb_false_iff. left. apply Z.ltb_ge. nia.
    - destruct IH as (D & E & [LD FD] & B); [lia|]. set (i := Z.of_nat c') in *. replace (Z.of_nat (S c')) with (i + 1) in * by lia. rewrite zrange_succ by lia. rewrite foldM_app, E. cbn [bind foldM].
      assert (0 <= i mod n < n) as Hr by (apply Z.mod_pos_bound; lia). assert (0 <= i mod b < b) as Hrb by (apply Z.mod_pos_bound; lia).
      assert (0 <= i / n < b) as Hq by (split; [apply Z.div_pos; lia|apply Z.div_lt_upper_bound; lia]). assert (0 <= i / b < n) as Hqb by (split; [apply Z.div_pos; lia|apply Z.div_lt_upper_bound; lia]).
      pose proof (Z.div_mod i b ltac:(lia)) as Hdm.
      destruct (zget_in_range X (i mod n)) as (x & Ex); [rewrite L; exact Hr|]. rewrite Ex. cbn [bind].
      unfold shr at 1. replace ((0 <=? b - 1 - i / n) && (b - 1 - i / n <? 64)) with true by (symmetry; apply andb_true_iff; rewrite Z.leb_le, Z.ltb_lt; clear -Hq Hb; lia). cbn [bind].
      assert (Z.land (Z.shiftr x (b - 1 - i / n)) 1 = Z.b2z (hbit X b n i)) as Eb.
      { unfold hbit. rewrite Ex. change 1 with (Z.ones 1). rewrite Z.land_ones by (clear; lia). change (2 ^ 1) with 2. rewrite <- Z.bit0_mod. f_equal. rewrite Z.shiftr_spec by (clear; lia). reflexivity. }
      rewrite Eb. unfold shl at 1. replace ((0 <=? b - 1 - i mod b) && (b - 1 - i mod b <? 64)) with true by (symmetry; apply andb_true_iff; rewrite Z.leb_le, Z.ltb_lt; clear -Hrb Hb; lia). cbn [bind].
      set (s := b - 1 - i mod b) in *. assert (0 <= s < b) as Hs by (unfold s; clear -Hrb; lia).
      assert (0 <= Z.shiftl (Z.b2z (hbit X b n i)) s < 2 ^ b) as Hv.
      { rewrite Z.shiftl_mul_pow2 by (clear -Hs; lia). pose proof (pow2_lt s b Hs). pose proof (pow2_pos s ltac:(clear -Hs; lia)). destruct (hbit X b n i); cbn [Z.b2z]; lia. }
      rewrite u64_small by (pose proof (pow2_le b 64 ltac:(clear -Hb; lia)); clear -Hv H; lia).
      destruct (zget_in_range D (i / b)) as (o & Eo); [rewrite LD; exact Hqb|]. rewrite Eo. cbn [bind].
      destruct (zset_in_range D (i / b) (Z.lor o (Z.shiftl (Z.b2z (hbit X b n i)) s)) ltac:(rewrite LD; exact Hqb)) as (D' & ED). rewrite ED. cbn [bind]. exists D'. split; [reflexivity|].
      rewrite Forall_forall in FD. pose proof (FD o (zget_In _ _ _ Eo)) as Ho. split.
      + split; [rewrite (zset_zlen _ _ _ _ ED); exact LD|]. apply Forall_forall. intros y Hy. apply In_zget in Hy as (k & Hk).
        destruct (Z.eq_dec k (i / b)) as [->|Hne].
        * rewrite (zset_get_eq _ _ _ _ ED) in Hk. injection Hk as <-. apply bits_range; [clear -Hb; lia|apply Z.lor_nonneg; split; [apply Ho|apply Hv]|].
          intros j Hj. rewrite Z.lor_spec, (bits_small o b Ho j Hj), (bits_small _ b Hv j Hj). reflexivity.
        * rewrite (zset_get_ne _ _ _ _ _ ED) in Hk by congruence. apply FD. eapply zget_In; exact Hk.
      + intros k d m Ek Hm. assert (forall j, Z.testbit (Z.shiftl (Z.b2z (hbit X b n i)) s) j = (j =? s) && hbit X b n i) as Sb.
        { intros j. rewrite Z.shiftl_mul_pow2 by (clear -Hs; lia). destruct (hbit X b n i); cbn [Z.b2z]; [|rewrite Z.mul_0_l, Z.bits_0; symmetry; apply andb_false_r].
          rewrite Z.mul_1_l, Z.pow2_bits_eqb by (clear -Hs; lia). rewrite andb_true_r. apply Z.eqb_sym. }
        destruct (Z.eq_dec k (i / b)) as [->|Hne].
        * rewrite (zset_get_eq _ _ _ _ ED) in Ek. injection Ek as <-. rewrite Z.lor_spec, Sb. rewrite (B _ _ m Eo Hm).
          destruct (Z.eqb_spec m s) as [->|Hms].
          -- assert (i / b * b + (b - 1 - s) = i) as -> by (unfold s; clear -Hdm; lia). rewrite Z.ltb_irrefl. replace (i <? i + 1) with true by (symmetry; apply Z.ltb_lt; clear; lia). reflexivity.
          -- rewrite andb_false_l, orb_false_r. f_equal. apply Bool.eq_iff_eq_true. rewrite !Z.ltb_lt. unfold s in Hms. clear -Hms Hdm. generalize dependent (i mod b). generalize (i / b). intros q r H1 H2. lia.
        * rewrite (zset_get_ne _ _ _ _ _ ED) in Ek by congruence. rewrite (B k d m Ek Hm). f_equal. apply Bool.eq_iff_eq_true. rewrite !Z.ltb_lt.
          clear -Hne Hdm Hm Hrb. generalize dependent (i mod b). generalize dependent (i / b). intros q Hq r H1 H2. split; intros H; nia. }
  destruct (K (b * n) ltac:(nia)) as (D & E & W & B). exists D. split; [exact E|]. split; [exact W|]. intros k d m Ek Hm. rewrite (B k d m Ek Hm).
  pose proof (zget_bounds _ _ _ Ek) as Bd. destruct W as [LD _]. replace (k * b + (b - 1 - m) <? b * n) with true; [reflexivity|]. symmetry. apply Z.ltb_lt. nia.
Qed.

(** the words of a position *)
Fixpoint wordn (n : Z) (h : Z) (k : nat) (j : Z) : Z :=
  match k with O => 0 | S k => Z.b2z (Z.testbit h (Z.of_nat k * n + (n - 1 - j))) * 2 ^ Z.of_nat k + wordn n h k j end.
Lemma wordn_range n h k j : 0 <= wordn n h k j < 2 ^ Z.of_nat k.
Proof.
  induction k as [|k IH]; [cbn; lia|]. cbn [wordn]. replace (Z.of_nat (S k)) with (Z.of_nat k + 1) by lia. rewrite Z.pow_add_r by lia. change (2 ^ 1) with 2.
  destruct (Z.testbit h _); cbn [Z.b2z]; lia.
Qed.
Lemma b2z_bit b m : 0 <= m -> Z.testbit (Z.b2z b) m = (m =? 0) && b.
Proof. intros H. destruct b; cbn [Z.b2z]; [|rewrite Z.bits_0, andb_false_r; reflexivity]. destruct (Z.eqb_spec m 0) as [->|]; [reflexivity|]. change 1 with (2 ^ 0). rewrite Z.pow2_bits_false by lia. reflexivity. Qed.
Lemma wordn_bit n h k j m : 0 <= m -> Z.testbit (wordn n h k j) m = (m <? Z.of_nat k) && Z.testbit h (m * n + (n - 1 - j)).
Proof.
  intros Hm. induction k as [|k IH].
  - cbn [wordn]. rewrite Z.bits_0. replace (m <? Z.of_nat 0) with false by (symmetry; apply Z.ltb_ge; lia). reflexivity.
  - cbn [wordn]. rewrite testbit_low_high by (try apply wordn_range; lia). rewrite IH. destruct (Z.ltb_spec m (Z.of_nat k)).
    + replace (m <? Z.of_nat (S k)) with true by (symmetry; apply Z.ltb_lt; lia). reflexivity.
    + rewrite b2z_bit by lia. destruct (Z.eqb_spec (m - Z.of_nat k) 0) as [E|E].
      * replace m with (Z.of_nat k) by lia. replace (Z.of_nat k <? Z.of_nat (S k)) with true by (symmetry; apply Z.ltb_lt; lia). reflexivity.
      * replace (m <? Z.of_nat (S k)) with false by (symmetry; apply Z.ltb_ge; lia). reflexivity.
Qed.

Lemma words_of_position b n Y D : 1 <= n -> 1 <= b <= 64 -> words b n Y -> untranspose Y b n = Ok D ->
  words b n D /\ reps n Y (wordn n (position b D) (Z.to_nat b)).
Proof.
  intros Hn Hb W E. destruct (untranspose_ok b n Y Hn Hb W) as (D' & E' & WD & B). rewrite E in E'. injection E' as <-. split; [exact WD|].
  destruct W as [L F]. destruct WD as [LD FD]. split; [exact L|]. intros j Hj. destruct (zget_in_range Y j ltac:(lia)) as (y & Ey). rewrite Ey. f_equal.
  rewrite Forall_forall in F. pose proof (F y (zget_In _ _ _ Ey)) as Hy.
  apply Z.bits_inj'. intros m Hm. rewrite wordn_bit by exact Hm. rewrite Z2Nat.id by lia. destruct (Z.ltb_spec m b) as [Hmb|Hmb]; [|rewrite (bits_small y b Hy m Hmb); reflexivity].
  rewrite andb_true_l. set (p := m * n + (n - 1 - j)). assert (0 <= p < b * n) as Hp by (unfold p; nia).
  (* the digit that holds bit p of the position *)
  set (k := n - 1 - p / b). pose proof (Z.div_mod p b ltac:(lia)) as Hdm. pose proof (Z.mod_pos_bound p b ltac:(lia)) as Hr.
  assert (0 <= p / b < n) as Hq by (split; [apply Z.div_pos; lia|apply Z.div_lt_upper_bound; lia]).
  destruct (zget_in_range D k ltac:(unfold k; lia)) as (d & Ed).
  assert (p = b * (zlen D - 1 - k) + p mod b) as Ep by (rewrite LD; unfold k; clear -Hdm; lia).
  rewrite Ep. rewrite (position_bit b D k (p mod b) ltac:(lia) FD Hr d Ed). rewrite (B k d (p mod b) Ed Hr). unfold hbit.
  assert (k * b + (b - 1 - p mod b) = (b - 1 - m) * n + j) as ->. { unfold k. assert (p = m * n + (n - 1 - j)) as Q by reflexivity. clear -Hdm Q. nia. }
  assert (((b - 1 - m) * n + j) mod n = j) as ->. { rewrite Z.add_comm, Z.mod_add by lia. apply Z.mod_small. lia. }
  assert (((b - 1 - m) * n + j) / n = b - 1 - m) as ->. { rewrite Z.add_comm, Z.div_add by lia. rewrite Z.div_small by lia. lia. }
  rewrite Ey. f_equal. lia.
Qed.

(** * every position has its words *)
Lemma untranspose_onto b n D : 1 <= n -> 1 <= b <= 64 -> words b n D -> exists Y, words b n Y /\ untranspose Y b n = Ok D.
Proof.
  intros Hn Hb WD. destruct (reps_mk n (wordn n (position b D) (Z.to_nat b)) ltac:(lia)) as (Y & R). exists Y.
  assert (words b n Y) as W. { apply (words_inr b n Y _ R). intros i Hi. pose proof (wordn_range n (position b D) (Z.to_nat b) i). rewrite Z2Nat.id in * by lia. lia. }
  split; [exact W|]. destruct (untranspose_ok b n Y Hn Hb W) as (D' & E & WD' & _). rewrite E. f_equal. apply (position_inj b n); [lia|exact WD'|exact WD|].
  destruct (words_of_position b n Y D' Hn Hb W E) as (_ & R'). pose proof (reps_eq n Y _ _ R' R) as Q.
  destruct WD as [LD FD]. destruct WD' as [LD' FD']. pose proof (position_range b D ltac:(lia) FD) as P1. pose proof (position_range b D' ltac:(lia) FD') as P2. rewrite LD in P1. rewrite LD' in P2.
  apply Z.bits_inj'. intros p Hp. destruct (Z.lt_ge_cases p (b * n)) as [Hpb|Hpb]; [|rewrite (bits_small _ _ P1 p Hpb), (bits_small _ _ P2 p Hpb); reflexivity].
  pose proof (Z.div_mod p n ltac:(lia)) as Hdm. pose proof (Z.mod_pos_bound p n ltac:(lia)) as Hr. assert (0 <= p / n < b) as Hq by (split; [apply Z.div_pos; lia|apply Z.div_lt_upper_bound; lia]).
  specialize (Q (n - 1 - p mod n) ltac:(lia)). apply (f_equal (fun w => Z.testbit w (p / n))) in Q. rewrite !wordn_bit in Q by lia. rewrite Z2Nat.id in Q by lia.
  replace (p / n <? b) with true in Q by (symmetry; apply Z.ltb_lt; lia). rewrite !andb_true_l in Q.
  replace (p / n * n + (n - 1 - (n - 1 - p mod n))) with p in Q; [exact Q|]. clear -Hdm. lia.
Qed.
