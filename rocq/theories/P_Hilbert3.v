(** Consecutive positions along the curve are neighbouring cells. *)
From Verif Require Import Prelude M_Array M_Hilbert S_Hilbert P_Array P_Map P_Hilbert P_Hilbert2.
Local Open Scope Z_scope.

(** * the exchanges, level by level *)
Fixpoint lev (n : Z) (k : nat) (f : Z -> Z) : Z -> Z := match k with O => f | S k => fdown n (Z.of_nat k) (lev n k f) end.

Lemma fstep_0 n f i : feq n (fstep 0 f i) f.
Proof.
  intros j Hj. unfold fstep. change (2 ^ 0 - 1) with 0. rewrite Z.land_0_r. cbv zeta. destruct (Z.testbit (f i) 0); unfold upd.
  - destruct (Z.eqb_spec j 0) as [->|]; [apply Z.lxor_0_r|reflexivity].
  - rewrite !Z.lxor_0_r. destruct (Z.eqb_spec j i) as [->|]; [destruct (Z.eqb_spec i 0) as [->|]; reflexivity|]. destruct (Z.eqb_spec j 0) as [->|]; reflexivity.
Qed.
Lemma fdown_0 n f : feq n (fdown n 0 f) f.
Proof.
  unfold fdown. generalize (rev (zrange n)) as l. intros l. revert f. induction l as [|i l IH]; intros f; [apply feq_refl|]. cbn [fold_left]. eapply feq_trans; [apply IH|apply fstep_0].
Qed.
Lemma lev_undo n k f : feq n (lev n (S k) f) (undo n (Z.of_nat (S k)) f).
Proof.
  induction k as [|k IH].
  - unfold undo. rewrite zfromto_nil by lia. cbn [lev fold_left]. apply fdown_0.
  - unfold undo in *. replace (Z.of_nat (S (S k))) with (Z.of_nat (S k) + 1) by lia. rewrite zfromto_snoc by lia. rewrite fold_left_app. cbn [fold_left].
    change (lev n (S (S k)) f) with (fdown n (Z.of_nat (S k)) (lev n (S k) f)). apply fdown_cong, IH.
Qed.

(** * low parts and top bits *)
Definition comb (k : Z) (t : Z -> bool) (l : Z -> Z) : Z -> Z := fun j => Z.b2z (t j) * 2 ^ k + l j.

Lemma lxor_comb k t l x : 0 <= k -> 0 <= l < 2 ^ k -> 0 <= x < 2 ^ k -> Z.lxor (t * 2 ^ k + l) x = t * 2 ^ k + Z.lxor l x.
Proof.
  intros Hk Hl Hx. apply Z.bits_inj'. intros j Hj. rewrite Z.lxor_spec. rewrite !testbit_low_high by (try apply lxor_range; lia). rewrite Z.lxor_spec.
  destruct (Z.ltb_spec j k); [reflexivity|]. rewrite (bits_small x k Hx j) by lia. apply xorb_false_r.
Qed.
Lemma land_comb k q t l t' l' : 0 <= q <= k -> 0 <= l < 2 ^ k -> 0 <= l' < 2 ^ k ->
  Z.land (Z.lxor (t * 2 ^ k + l) (t' * 2 ^ k + l')) (2 ^ q - 1) = Z.land (Z.lxor l l') (2 ^ q - 1).
Proof.
  intros Hq Hl Hl'. apply Z.bits_inj'. intros j Hj. rewrite !Z.land_spec, !Z.lxor_spec, ones_bit by lia. rewrite !testbit_low_high by lia.
  destruct (Z.ltb_spec j q); [|rewrite !andb_false_r; reflexivity]. replace (j <? k) with true by (symmetry; apply Z.ltb_lt; lia). reflexivity.
Qed.

Lemma step_low n k q t l i : 0 <= q < k -> 0 <= i < n -> inr k n l -> feq n (fstep q (comb k t l) i) (comb k t (fstep q l i)).
Proof.
  intros Hq Hi I j Hj. pose proof (I i Hi) as Hli. pose proof (I 0 ltac:(lia)) as Hl0. pose proof (ones_range q k ltac:(lia)) as Ho.
  unfold fstep. assert (Z.testbit (comb k t l i) q = Z.testbit (l i) q) as ->.
  { unfold comb. rewrite testbit_low_high by lia. replace (q <? k) with true by (symmetry; apply Z.ltb_lt; lia). reflexivity. }
  destruct (Z.testbit (l i) q).
  - unfold comb, upd. destruct (Z.eqb_spec j 0) as [->|]; [|reflexivity]. apply lxor_comb; lia.
  - cbv zeta. assert (Z.land (Z.lxor (comb k t l 0) (comb k t l i)) (2 ^ q - 1) = Z.land (Z.lxor (l 0) (l i)) (2 ^ q - 1)) as ->.
    { unfold comb. apply land_comb; lia. }
    set (x := Z.land _ _). assert (0 <= x < 2 ^ k) as Hx by (apply land_range; lia). unfold comb, upd.
    destruct (Z.eqb_spec j i) as [->|]; [destruct (Z.eqb_spec i 0) as [->|]|destruct (Z.eqb_spec j 0) as [->|]; [|reflexivity]].
    + rewrite !lxor_comb by (try apply lxor_range; lia). reflexivity.
    + apply lxor_comb; lia.
    + apply lxor_comb; lia.
Qed.

(** the effect of the level of the top bits on the low parts: reflect the first coordinate, or exchange two *)
Definition tstep (m : Z) (t : Z -> bool) (l : Z -> Z) (i : Z) : Z -> Z :=
  if t i then upd l 0 (m - l 0) else upd (upd l 0 (l i)) i (l 0).

Lemma lxor_ones_sub k x : 0 <= k -> 0 <= x < 2 ^ k -> Z.lxor x (2 ^ k - 1) = 2 ^ k - 1 - x.
Proof.
  intros Hk Hx. assert (Z.ldiff (2 ^ k - 1) x = 2 ^ k - 1 - x) as <-.
  { symmetry. apply Z.sub_nocarry_ldiff. apply Z.bits_inj'. intros j Hj. rewrite Z.ldiff_spec, ones_bit, Z.bits_0 by lia. destruct (Z.ltb_spec j k); [apply andb_false_r|]. rewrite (bits_small x k Hx j) by lia. reflexivity. }
  apply Z.bits_inj'. intros j Hj. rewrite Z.lxor_spec, Z.ldiff_spec, ones_bit by lia. destruct (Z.ltb_spec j k); [destruct (Z.testbit x j); reflexivity|]. rewrite (bits_small x k Hx j) by lia. reflexivity.
Qed.
Lemma land_all k x : 0 <= k -> 0 <= x < 2 ^ k -> Z.land x (2 ^ k - 1) = x.
Proof. intros Hk Hx. rewrite ones_eq, Z.land_ones by lia. apply Z.mod_small, Hx. Qed.

Lemma step_top n k t l i : 0 <= k -> 0 <= i < n -> inr k n l -> feq n (fstep k (comb k t l) i) (comb k t (tstep (2 ^ k - 1) t l i)).
Proof.
  intros Hk Hi I j Hj. pose proof (I i Hi) as Hli. pose proof (I 0 ltac:(lia)) as Hl0. pose proof (pow2_pos k Hk) as Hp.
  unfold fstep. assert (Z.testbit (comb k t l i) k = t i) as ->.
  { unfold comb. rewrite testbit_low_high by lia. rewrite Z.ltb_irrefl, Z.sub_diag, b2z_bit by lia. reflexivity. }
  unfold tstep. destruct (t i) eqn:Et.
  - unfold comb, upd. destruct (Z.eqb_spec j 0) as [->|]; [|reflexivity]. rewrite lxor_comb by lia. rewrite lxor_ones_sub by lia. reflexivity.
  - cbv zeta. assert (Z.land (Z.lxor (comb k t l 0) (comb k t l i)) (2 ^ k - 1) = Z.lxor (l 0) (l i)) as ->.
    { unfold comb. rewrite land_comb by lia. apply land_all; [lia|]. apply lxor_range; lia. }
    assert (0 <= Z.lxor (l 0) (l i) < 2 ^ k) as Hx by (apply lxor_range; lia). unfold comb, upd.
    destruct (Z.eqb_spec j i) as [->|]; [destruct (Z.eqb_spec i 0) as [->|]|destruct (Z.eqb_spec j 0) as [->|]; [|reflexivity]].
    + rewrite Z.lxor_nilpotent, !Z.lxor_0_r. reflexivity.
    + rewrite lxor_comb by lia. rewrite (Z.lxor_comm (l 0)), <- Z.lxor_assoc, Z.lxor_nilpotent, Z.lxor_0_l. reflexivity.
    + rewrite lxor_comb by lia. rewrite <- Z.lxor_assoc, Z.lxor_nilpotent, Z.lxor_0_l. reflexivity.
Qed.
Lemma tstep_range n k t l i : 0 <= k -> 0 <= i < n -> inr k n l -> inr k n (tstep (2 ^ k - 1) t l i).
Proof.
  intros Hk Hi I j Hj. pose proof (I i Hi). pose proof (I 0 ltac:(lia)). pose proof (I j Hj). unfold tstep, upd. destruct (t i); [destruct (j =? 0); lia|]. destruct (j =? i); [lia|]. destruct (j =? 0); lia.
Qed.
Lemma tstep_cong n m t l l' i : 0 <= i < n -> feq n l l' -> feq n (tstep m t l i) (tstep m t l' i).
Proof.
  intros Hi E j Hj. unfold tstep, upd. rewrite (E 0) by lia. rewrite (E i) by lia. destruct (t i); [destruct (j =? 0); [reflexivity|apply E, Hj]|]. destruct (j =? i); [reflexivity|]. destruct (j =? 0); [reflexivity|apply E, Hj].
Qed.

Lemma fold_comb {A} n k t (fop gop : (Z -> Z) -> A -> Z -> Z) (s : list A) :
  (forall i x y, In i s -> inr k n x -> feq n y (comb k t x) -> feq n (fop y i) (comb k t (gop x i)) /\ inr k n (gop x i)) ->
  forall x y, inr k n x -> feq n y (comb k t x) -> feq n (fold_left fop s y) (comb k t (fold_left gop s x)) /\ inr k n (fold_left gop s x).
Proof.
  induction s as [|i s IH]; intros H x y I E; [split; assumption|]. cbn [fold_left]. destruct (H i x y (or_introl eq_refl) I E) as (E1 & I1). apply IH; [|exact I1|exact E1]. intros; apply H; [right; assumption|assumption..].
Qed.
Lemma fdown_low n k q t x y : 0 <= q < k -> inr k n x -> feq n y (comb k t x) -> feq n (fdown n q y) (comb k t (fdown n q x)) /\ inr k n (fdown n q x).
Proof.
  intros Hq. apply fold_comb. intros i x' y' Hi I E. rewrite <- in_rev in Hi. apply in_zrange in Hi. split; [|apply fstep_range; [lia|exact Hi|exact I]].
  eapply feq_trans; [apply fstep_cong; [exact Hi|exact E]|]. apply step_low; assumption.
Qed.
Lemma lev_low n k t (q : nat) x y : Z.of_nat q <= k -> inr k n x -> feq n y (comb k t x) -> feq n (lev n q y) (comb k t (lev n q x)) /\ inr k n (lev n q x).
Proof.
  intros Hq I E. induction q as [|q IH]; [split; assumption|]. cbn [lev]. destruct IH as (E1 & I1); [lia|]. apply fdown_low; [lia|exact I1|exact E1].
Qed.
Definition tall (n m : Z) (t : Z -> bool) (l : Z -> Z) : Z -> Z := fold_left (tstep m t) (rev (zrange n)) l.
Lemma fdown_top n k t x y : 0 <= k -> inr k n x -> feq n y (comb k t x) -> feq n (fdown n k y) (comb k t (tall n (2 ^ k - 1) t x)) /\ inr k n (tall n (2 ^ k - 1) t x).
Proof.
  intros Hk. apply fold_comb. intros i x' y' Hi I E. rewrite <- in_rev in Hi. apply in_zrange in Hi. split; [|apply tstep_range; assumption].
  eapply feq_trans; [apply fstep_cong; [exact Hi|exact E]|]. apply step_top; assumption.
Qed.
Lemma tfold_cong n m t s x y : (forall i, In i s -> 0 <= i < n) -> feq n x y -> feq n (fold_left (tstep m t) s x) (fold_left (tstep m t) s y).
Proof. intros H. apply fold_cong. intros i f g Hi E. apply tstep_cong; [apply H, Hi|exact E]. Qed.
Lemma tall_cong n m t x y : feq n x y -> feq n (tall n m t x) (tall n m t y).
Proof. apply tfold_cong. intros i Hi. rewrite <- in_rev in Hi. apply in_zrange in Hi. exact Hi. Qed.

(** * the reflected Gray code *)
Definition gray (h : Z) : Z := Z.lxor h (Z.shiftr h 1).
Lemma gray_bit h s : 0 <= s -> Z.testbit (gray h) s = xorb (Z.testbit h s) (Z.testbit h (s + 1)).
Proof. intros H. unfold gray. rewrite Z.lxor_spec, Z.shiftr_spec by lia. reflexivity. Qed.
Lemma gray_0 : gray 0 = 0. Proof. reflexivity. Qed.

Lemma wordn_ext n h h' k j : (forall m, 0 <= m < Z.of_nat k -> Z.testbit h (m * n + (n - 1 - j)) = Z.testbit h' (m * n + (n - 1 - j))) -> wordn n h k j = wordn n h' k j.
Proof. intros H. induction k as [|k IH]; [reflexivity|]. cbn [wordn]. rewrite IH by (intros; apply H; lia). rewrite H by lia. reflexivity. Qed.

Lemma dec_words n h k : 1 <= n -> 0 <= h < 2 ^ (Z.of_nat k * n) -> feq n (dec n (wordn n h k)) (wordn n (gray h) k).
Proof.
  intros Hn Hh j Hj. unfold dec. apply Z.bits_inj'. intros m Hm. rewrite Z.lxor_spec, !wordn_bit by exact Hm.
  destruct (Z.ltb_spec m (Z.of_nat k)) as [Hk|Hk].
  - rewrite !andb_true_l. assert (0 <= m * n) by nia. rewrite gray_bit by lia. f_equal. destruct (Z.eqb_spec j 0) as [->|Hne].
    + rewrite Z.shiftr_spec, wordn_bit by lia. replace ((m + 1) * n + (n - 1 - (n - 1))) with (m * n + (n - 1 - 0) + 1) by lia. destruct (Z.ltb_spec (m + 1) (Z.of_nat k)) as [Hk1|Hk1]; [reflexivity|].
      symmetry. apply (bits_small h _ Hh). nia.
    + rewrite wordn_bit by lia. replace (m <? Z.of_nat k) with true by (symmetry; apply Z.ltb_lt; lia). rewrite andb_true_l. f_equal. lia.
  - rewrite !andb_false_l. destruct (j =? 0); [rewrite Z.shiftr_spec, wordn_bit by lia|rewrite wordn_bit by lia].
    + replace (m + 1 <? Z.of_nat k) with false by (symmetry; apply Z.ltb_ge; lia). reflexivity.
    + replace (m <? Z.of_nat k) with false by (symmetry; apply Z.ltb_ge; lia). reflexivity.
Qed.

(** * the cell at a position *)
Definition cellat (n : Z) (k : nat) (h : Z) : Z -> Z := lev n k (wordn n (gray h) k).
Definition tops (n w : Z) : Z -> bool := fun j => Z.testbit (gray w) (n - 1 - j).
Definition turn (n : Z) (k : nat) (w h : Z) : Z := if Z.odd w then 2 ^ (Z.of_nat k * n) - 1 - h else h.

Lemma cellat_range n k h : inr (Z.of_nat k) n (cellat n k h).
Proof.
  unfold cellat. assert (forall q f, (q <= k)%nat -> inr (Z.of_nat k) n f -> inr (Z.of_nat k) n (lev n q f)) as K.
  { induction q as [|q IH]; intros f Hq I; [exact I|]. cbn [lev]. apply fdown_range; [lia|]. apply IH; [lia|exact I]. }
  apply K; [lia|]. intros j Hj. apply wordn_range.
Qed.

Lemma cellat_step n k w h : 1 <= n -> 0 <= w -> 0 <= h < 2 ^ (Z.of_nat k * n) ->
  feq n (cellat n (S k) (w * 2 ^ (Z.of_nat k * n) + h)) (comb (Z.of_nat k) (tops n w) (tall n (2 ^ Z.of_nat k - 1) (tops n w) (cellat n k (turn n k w h)))).
Proof.
  intros Hn Hw Hh. set (K := Z.of_nat k) in *. assert (0 <= K * n) as HK by (unfold K; nia). unfold cellat at 1. cbn [lev]. fold K.
  apply fdown_top; [unfold K; lia|apply cellat_range|]. apply lev_low; [unfold K; lia|intros j Hj; apply wordn_range|].
  intros j Hj. unfold comb. cbn [wordn]. fold K. f_equal.
  - f_equal. f_equal. unfold tops. rewrite !gray_bit by lia. rewrite !testbit_low_high by lia.
    destruct (Z.ltb_spec (K * n + (n - 1 - j)) (K * n)); [lia|]. destruct (Z.ltb_spec (K * n + (n - 1 - j) + 1) (K * n)); [lia|]. f_equal; f_equal; lia.
  - apply wordn_ext. intros m Hm. fold K in Hm. set (p := m * n + (n - 1 - j)). assert (0 <= p < K * n) as Hp by (unfold p; nia).
    rewrite !gray_bit by lia. rewrite !testbit_low_high by lia. replace (p <? K * n) with true by (symmetry; apply Z.ltb_lt; lia). unfold turn.
    destruct (Z.odd w) eqn:Eo.
    + rewrite <- lxor_ones_sub by assumption. rewrite !Z.lxor_spec, !ones_bit by lia. fold K. replace (p <? K * n) with true by (symmetry; apply Z.ltb_lt; lia).
      destruct (Z.ltb_spec (p + 1) (K * n)) as [Hp1|Hp1]; [fold K; destruct (Z.ltb_spec (p + 1) (K * n)); [|lia]; destruct (Z.testbit h p), (Z.testbit h (p + 1)); reflexivity|].
      rewrite (bits_small h _ Hh (p + 1)) by lia. replace (p + 1 - K * n) with 0 by lia. rewrite Z.bit0_odd, Eo. destruct (Z.testbit h p); reflexivity.
    + destruct (Z.ltb_spec (p + 1) (K * n)) as [Hp1|Hp1]; [reflexivity|]. rewrite (bits_small h _ Hh (p + 1)) by lia. replace (p + 1 - K * n) with 0 by lia. rewrite Z.bit0_odd, Eo. reflexivity.
Qed.

(** * neighbouring cells *)
Definition fadj (n : Z) (f g : Z -> Z) : Prop := exists j, 0 <= j < n /\ Z.abs (f j - g j) = 1 /\ forall i, 0 <= i < n -> i <> j -> f i = g i.
Lemma fadj_sym n f g : fadj n f g -> fadj n g f.
Proof. intros (j & Hj & E & H). exists j. split; [exact Hj|]. split; [lia|]. intros i Hi Hne. symmetry. apply H; assumption. Qed.
Lemma fadj_cong n f f' g g' : feq n f f' -> feq n g g' -> fadj n f' g' -> fadj n f g.
Proof. intros Ef Eg (j & Hj & E & H). exists j. split; [exact Hj|]. split; [rewrite Ef, Eg by exact Hj; exact E|]. intros i Hi Hne. rewrite Ef, Eg by exact Hi. apply H; assumption. Qed.
Lemma tstep_fadj n m t f g i : 0 <= i < n -> fadj n f g -> fadj n (tstep m t f i) (tstep m t g i).
Proof.
  intros Hi (j & Hj & E & H). unfold tstep. destruct (t i).
  - exists j. split; [exact Hj|]. unfold upd. split; [destruct (Z.eqb_spec j 0) as [->|]; lia|]. intros a Ha Hne. destruct (Z.eqb_spec a 0) as [->|]; [rewrite (H 0) by lia; reflexivity|apply H; assumption].
  - destruct (Z.eq_dec j 0) as [->|Hj0]; [|destruct (Z.eq_dec j i) as [->|Hji]].
    + exists i. split; [exact Hi|]. unfold upd. rewrite Z.eqb_refl. split; [exact E|]. intros a Ha Hne. rewrite (proj2 (Z.eqb_neq a i)) by lia. destruct (Z.eqb_spec a 0) as [->|]; [apply H; lia|apply H; lia].
    + exists 0. split; [lia|]. unfold upd. rewrite (proj2 (Z.eqb_neq 0 i)) by lia. rewrite Z.eqb_refl. split; [exact E|]. intros a Ha Hne. destruct (Z.eqb_spec a i) as [->|]; [apply H; lia|]. rewrite (proj2 (Z.eqb_neq a 0)) by lia. apply H; lia.
    + exists j. split; [exact Hj|]. unfold upd. rewrite (proj2 (Z.eqb_neq j i)) by lia. rewrite (proj2 (Z.eqb_neq j 0)) by lia. split; [exact E|]. intros a Ha Hne. destruct (Z.eqb_spec a i) as [->|]; [apply H; lia|]. destruct (Z.eqb_spec a 0) as [->|]; apply H; lia.
Qed.
Lemma tall_fadj n m t f g : fadj n f g -> fadj n (tall n m t f) (tall n m t g).
Proof.
  unfold tall. assert (forall i, In i (rev (zrange n)) -> 0 <= i < n) as K by (intros i Hi; rewrite <- in_rev in Hi; apply in_zrange in Hi; exact Hi).
  revert f g K. generalize (rev (zrange n)) as s. induction s as [|i s IH]; intros f g K H; [exact H|]. cbn [fold_left]. apply IH; [intros; apply K; right; assumption|]. apply tstep_fadj; [apply K; left; reflexivity|exact H].
Qed.
Lemma comb_fadj n k t f g : fadj n f g -> fadj n (comb k t f) (comb k t g).
Proof. intros (j & Hj & E & H). exists j. split; [exact Hj|]. unfold comb. split; [lia|]. intros i Hi Hne. rewrite (H i) by assumption. reflexivity. Qed.

(** * adding one *)
Definition carries (w z : Z) : Prop := 0 <= z /\ (forall s, 0 <= s < z -> Z.testbit w s = true /\ Z.testbit (w + 1) s = false) /\
  Z.testbit w z = false /\ Z.testbit (w + 1) z = true /\ forall s, z < s -> Z.testbit w s = Z.testbit (w + 1) s.
Lemma carry w : 0 <= w -> exists z, carries w z.
Proof.
  intros Hw. generalize Hw. pattern w. apply Z_lt_induction; [|exact Hw]. clear w Hw. intros w IH Hw. destruct (Z.Even_or_Odd w) as [[v ->]|[v ->]].
  - exists 0. split; [lia|]. split; [intros; lia|]. split; [apply Z.testbit_even_0|]. split; [apply Z.testbit_odd_0|]. intros s Hs. replace s with (Z.succ (s - 1)) by lia. rewrite Z.testbit_even_succ, Z.testbit_odd_succ by lia. reflexivity.
  - destruct (IH v ltac:(lia) ltac:(lia)) as (z & Hz & L & Fz & Tz & U). exists (Z.succ z). unfold carries. replace (2 * v + 1 + 1) with (2 * (v + 1)) by lia. split; [lia|]. split; [|split; [|split]].
    + intros s Hs. destruct (Z.eq_dec s 0) as [->|Hs0]; [split; [apply Z.testbit_odd_0|apply Z.testbit_even_0]|]. replace s with (Z.succ (s - 1)) by lia. rewrite Z.testbit_even_succ, Z.testbit_odd_succ by lia. apply L. lia.
    + rewrite Z.testbit_odd_succ by lia. exact Fz.
    + rewrite Z.testbit_even_succ by lia. exact Tz.
    + intros s Hs. replace s with (Z.succ (s - 1)) by lia. rewrite Z.testbit_even_succ, Z.testbit_odd_succ by lia. apply U. lia.
Qed.
Lemma gray_carry w z : 0 <= w -> carries w z ->
  (forall s, 0 <= s -> s <> z -> Z.testbit (gray w) s = Z.testbit (gray (w + 1)) s) /\
  Z.testbit (gray w) z = negb (Z.testbit (gray (w + 1)) z) /\
  (forall s, 0 <= s < z - 1 -> Z.testbit (gray w) s = false) /\ (0 < z -> Z.testbit (gray w) (z - 1) = true) /\ Z.odd w = (0 <? z).
Proof.
  intros Hw (Hz & L & Fz & Tz & U). split; [|split; [|split; [|split]]].
  - intros s Hs Hne. rewrite !gray_bit by lia. destruct (Z.lt_ge_cases s z) as [Hlt|Hge].
    + destruct (L s ltac:(lia)) as (-> & ->). destruct (Z.eq_dec (s + 1) z) as [->|Hn1]; [rewrite Fz, Tz; reflexivity|]. destruct (L (s + 1) ltac:(lia)) as (-> & ->). reflexivity.
    + rewrite (U s), (U (s + 1)) by lia. reflexivity.
  - rewrite !gray_bit by lia. rewrite Fz, Tz, (U (z + 1)) by lia. destruct (Z.testbit (w + 1) (z + 1)); reflexivity.
  - intros s Hs. rewrite gray_bit by lia. destruct (L s ltac:(lia)) as (-> & _). destruct (L (s + 1) ltac:(lia)) as (-> & _). reflexivity.
  - intros H0. rewrite gray_bit by lia. destruct (L (z - 1) ltac:(lia)) as (-> & _). replace (z - 1 + 1) with z by lia. rewrite Fz. reflexivity.
  - rewrite <- Z.bit0_odd. destruct (Z.ltb_spec 0 z); [apply L; lia|]. replace 0 with z by lia. exact Fz.
Qed.

(** * passing from one block to the next *)
Definition corner (m : Z) : Z -> Z := fun i => if i =? 0 then m else 0.
Definition zero : Z -> Z := fun _ => 0.

Lemma tfold_zero n m t s : (forall i, In i s -> 0 <= i < n /\ t i = false) -> feq n (fold_left (tstep m t) s zero) zero.
Proof.
  induction s as [|i s IH]; intros H; [apply feq_refl|]. cbn [fold_left]. destruct (H i (or_introl eq_refl)) as (Hi & Et).
  eapply feq_trans; [|apply IH; intros; apply H; right; assumption]. apply tfold_cong; [intros; apply H; right; assumption|]. intros j Hj. unfold tstep. rewrite Et. unfold upd, zero. destruct (j =? i); [reflexivity|]. destruct (j =? 0); reflexivity.
Qed.

Lemma cross n m t t' j x : 0 <= j < n -> t j = false -> t' j = true -> (forall i, 0 <= i < j -> t i = t' i) -> feq n x (corner m) ->
  let r := fold_left (tstep m t) (rev (zrange (j + 1))) x in let r' := fold_left (tstep m t') (rev (zrange (j + 1))) x in
  r j = m /\ r' j = 0 /\ forall i, 0 <= i < n -> i <> j -> r i = r' i.
Proof.
  intros Hj F T A E. cbv zeta. rewrite zrange_succ, rev_app_distr by lia. cbn [rev app fold_left].
  assert (forall s y y', (forall i, In i s -> 0 <= i < j) -> (y j = m /\ y' j = 0 /\ forall i, 0 <= i < n -> i <> j -> y i = y' i) ->
    let r := fold_left (tstep m t) s y in let r' := fold_left (tstep m t') s y' in r j = m /\ r' j = 0 /\ forall i, 0 <= i < n -> i <> j -> r i = r' i) as K.
  { induction s as [|i s IH]; intros y y' Hs H; [exact H|]. cbn [fold_left]. apply IH; [intros; apply Hs; right; assumption|]. pose proof (Hs i (or_introl eq_refl)) as Hi. destruct H as (H1 & H2 & H3).
    unfold tstep. rewrite <- (A i Hi). destruct (t i); unfold upd.
    - rewrite (proj2 (Z.eqb_neq j 0)) by lia. split; [exact H1|]. split; [exact H2|]. intros a Ha Hne. destruct (a =? 0); [rewrite (H3 0) by lia; reflexivity|apply H3; assumption].
    - rewrite (proj2 (Z.eqb_neq j 0)) by lia. rewrite (proj2 (Z.eqb_neq j i)) by lia. split; [exact H1|]. split; [exact H2|]. intros a Ha Hne. destruct (a =? i); [apply H3; lia|]. destruct (a =? 0); apply H3; lia. }
  apply K; [intros i Hi; rewrite <- in_rev in Hi; apply in_zrange in Hi; exact Hi|].
  unfold tstep. rewrite F, T. unfold upd. rewrite Z.eqb_refl. pose proof (E 0 ltac:(lia)) as E0. unfold corner in E0. rewrite Z.eqb_refl in E0.
  split; [exact E0|]. split.
  - destruct (Z.eqb_spec j 0) as [->|Hne]; [lia|]. rewrite E by lia. unfold corner. rewrite (proj2 (Z.eqb_neq j 0)) by lia. reflexivity.
  - intros i Hi Hne. rewrite (proj2 (Z.eqb_neq i j)) by lia. destruct (Z.eqb_spec i 0) as [->|]; [|reflexivity]. rewrite E by lia. unfold corner. rewrite (proj2 (Z.eqb_neq j 0)) by lia. lia.
Qed.

Definition front (k : nat) (n w : Z) : Z -> Z := if Z.odd w then zero else corner (2 ^ Z.of_nat k - 1).

Lemma crossing n k w x x' : 1 <= n -> 0 <= w -> w + 1 < 2 ^ n -> feq n x (front k n w) -> feq n x' (front k n w) ->
  fadj n (comb (Z.of_nat k) (tops n w) (tall n (2 ^ Z.of_nat k - 1) (tops n w) x)) (comb (Z.of_nat k) (tops n (w + 1)) (tall n (2 ^ Z.of_nat k - 1) (tops n (w + 1)) x')).
Proof.
  intros Hn Hw Hw1 Ex Ex'. set (m := 2 ^ Z.of_nat k - 1). destruct (carry w Hw) as (z & C). assert (0 <= z < n) as Hz.
  { destruct C as (Hz & _ & _ & Tz & _). split; [exact Hz|]. destruct (Z.lt_ge_cases z n) as [|Hge]; [assumption|]. rewrite (bits_small (w + 1) n) in Tz by lia. discriminate. }
  destruct (gray_carry w z Hw C) as (G1 & G2 & G3 & G4 & G5). set (j := n - 1 - z). assert (0 <= j < n) as Hj by (unfold j; lia).
  assert (forall i, 0 <= i < n -> i <> j -> tops n w i = tops n (w + 1) i) as A by (intros i Hi Hne; unfold tops; apply G1; unfold j in Hne; lia).
  assert (tops n w j = negb (tops n (w + 1) j)) as Aj by (unfold tops, j; replace (n - 1 - (n - 1 - z)) with z by lia; exact G2).
  (* before the coordinate that changes *)
  assert (forall t y, (forall i, 0 <= i < n -> i <> j -> t i = tops n w i) -> feq n y (front k n w) -> feq n (fold_left (tstep m t) (rev (zfromto (j + 1) n)) y) (corner m)) as B.
  { intros t y Ht Ey. unfold front in Ey. rewrite G5 in Ey. destruct (Z.ltb_spec 0 z) as [Hz0|Hz0].
    - rewrite zfromto_cons by (unfold j; lia). cbn [rev]. rewrite fold_left_app. cbn [fold_left].
      assert (feq n (fold_left (tstep m t) (rev (zfromto (j + 1 + 1) n)) y) zero) as Z0.
      { eapply feq_trans; [apply tfold_cong; [|exact Ey]|apply tfold_zero].
        - intros i Hi. rewrite <- in_rev in Hi. apply in_zfromto in Hi. lia.
        - intros i Hi. rewrite <- in_rev in Hi. apply in_zfromto in Hi. split; [lia|]. rewrite Ht by lia. unfold tops. apply G3. unfold j in Hi. lia. }
      eapply feq_trans; [apply tstep_cong; [unfold j; lia|exact Z0]|]. intros i Hi. unfold tstep. rewrite Ht by (unfold j; lia). unfold tops. replace (n - 1 - (j + 1)) with (z - 1) by (unfold j; lia). rewrite (G4 Hz0).
      unfold upd, zero, corner. destruct (i =? 0); [lia|reflexivity].
    - rewrite zfromto_nil by (unfold j; lia). exact Ey. }
  assert (forall t t' y y', (forall i, 0 <= i < n -> i <> j -> t i = tops n w i) -> (forall i, 0 <= i < n -> i <> j -> t' i = tops n w i) -> t j = false -> t' j = true ->
    feq n y (front k n w) -> feq n y' (front k n w) -> fadj n (comb (Z.of_nat k) t (tall n m t y)) (comb (Z.of_nat k) t' (tall n m t' y'))) as K.
  { intros t t' y y' Ht Ht' F T Ey Ey'. unfold tall. rewrite <- zfromto_0, (zfromto_app 0 (j + 1) n) by lia. rewrite rev_app_distr, !fold_left_app, zfromto_0.
    pose proof (B t y Ht Ey) as By. pose proof (B t' y' Ht' Ey') as By'. set (x1 := fold_left (tstep m t) (rev (zfromto (j + 1) n)) y) in *. set (x2 := fold_left (tstep m t') (rev (zfromto (j + 1) n)) y') in *.
    pose proof (cross n m t t' j x1 Hj F T) as X. cbv zeta in X. destruct X as (X1 & X2 & X3); [intros i Hi; rewrite Ht, Ht' by lia; reflexivity|exact By|].
    assert (feq n (fold_left (tstep m t') (rev (zrange (j + 1))) x2) (fold_left (tstep m t') (rev (zrange (j + 1))) x1)) as Q.
    { apply tfold_cong; [intros i Hi; rewrite <- in_rev in Hi; apply in_zrange in Hi; lia|]. eapply feq_trans; [exact By'|apply feq_sym, By]. }
    exists j. split; [exact Hj|]. unfold comb. split.
    - rewrite Q by exact Hj. rewrite X1, X2, F, T. cbn [Z.b2z]. unfold m. lia.
    - intros i Hi Hne. rewrite Q by exact Hi. rewrite X3 by assumption. rewrite Ht, Ht' by assumption. reflexivity. }
  destruct (tops n (w + 1) j) eqn:Et.
  - apply K; [reflexivity|intros; symmetry; apply A; assumption|exact Aj|exact Et|exact Ex|exact Ex'].
  - apply fadj_sym. apply K; [intros; symmetry; apply A; assumption|reflexivity|exact Et|exact Aj|exact Ex'|exact Ex].
Qed.

(** * the curve *)
Lemma tall_corner n m : 1 <= n -> feq n (tall n m (tops n (2 ^ n - 1)) zero) (corner m).
Proof.
  intros Hn. unfold tall. rewrite zrange_split_0 by lia. cbn [rev]. rewrite fold_left_app. cbn [fold_left].
  assert (forall s, 0 <= s -> Z.testbit (gray (2 ^ n - 1)) s = (s =? n - 1)) as G.
  { intros s Hs. rewrite gray_bit, !ones_bit by lia. destruct (Z.eqb_spec s (n - 1)) as [->|Hne]; [|destruct (Z.ltb_spec s n), (Z.ltb_spec (s + 1) n); (reflexivity || lia)].
    replace (n - 1 <? n) with true by (symmetry; apply Z.ltb_lt; lia). replace (n - 1 + 1 <? n) with false by (symmetry; apply Z.ltb_ge; lia). reflexivity. }
  eapply feq_trans; [apply tstep_cong; [lia|apply tfold_zero]|].
  - intros i Hi. rewrite <- in_rev in Hi. apply in_map_iff in Hi as (i' & <- & Hi). apply in_zrange in Hi. split; [lia|]. unfold tops. rewrite G by lia. apply Z.eqb_neq. lia.
  - intros i Hi. unfold tstep, tops. rewrite G by lia. replace (n - 1 - 0 =? n - 1) with true by (symmetry; apply Z.eqb_eq; lia). unfold upd, zero, corner. destruct (i =? 0); [lia|reflexivity].
Qed.

Lemma cellat_first n k : 1 <= n -> feq n (cellat n k 0) zero.
Proof.
  intros Hn. induction k as [|k IH]; [intros i Hi; reflexivity|]. assert (0 <= Z.of_nat k * n) by nia. pose proof (pow2_pos (Z.of_nat k * n) ltac:(lia)).
  replace 0 with (0 * 2 ^ (Z.of_nat k * n) + 0) at 1 by lia.
  eapply feq_trans; [apply cellat_step; lia|]. assert (forall i, 0 <= i < n -> tops n 0 i = false) as T by (intros i Hi; unfold tops; rewrite gray_0; apply Z.bits_0).
  intros i Hi. unfold comb. rewrite (T i Hi). rewrite (tall_cong n _ _ _ zero IH i Hi). unfold tall. rewrite (tfold_zero n); [reflexivity| |exact Hi]. intros a Ha. rewrite <- in_rev in Ha. apply in_zrange in Ha. split; [exact Ha|apply T, Ha].
Qed.
Lemma cellat_last n k : 1 <= n -> feq n (cellat n k (2 ^ (Z.of_nat k * n) - 1)) (corner (2 ^ Z.of_nat k - 1)).
Proof.
  intros Hn. destruct k as [|k]; [intros i Hi; unfold cellat; cbn [lev wordn]; unfold corner; change (2 ^ Z.of_nat 0 - 1) with 0; destruct (i =? 0); reflexivity|].
  assert (0 <= Z.of_nat k * n) as Hkn by nia. pose proof (pow2_pos (Z.of_nat k * n) ltac:(lia)). pose proof (pow2_pos n ltac:(lia)).
  replace (2 ^ (Z.of_nat (S k) * n) - 1) with ((2 ^ n - 1) * 2 ^ (Z.of_nat k * n) + (2 ^ (Z.of_nat k * n) - 1)).
  2: { replace (Z.of_nat (S k) * n) with (n + Z.of_nat k * n) by lia. rewrite Z.pow_add_r by lia. lia. }
  eapply feq_trans; [apply cellat_step; lia|]. intros i Hi. unfold comb.
  assert (turn n k (2 ^ n - 1) (2 ^ (Z.of_nat k * n) - 1) = 0) as ->.
  { unfold turn. replace (Z.odd (2 ^ n - 1)) with true; [lia|]. symmetry. rewrite <- Z.bit0_odd, ones_bit by lia. apply Z.ltb_lt. lia. }
  rewrite (tall_cong n _ _ _ zero (cellat_first n k Hn) i Hi). rewrite tall_corner by assumption. unfold tops. rewrite gray_bit, !ones_bit by lia. unfold corner.
  replace (Z.of_nat (S k)) with (Z.of_nat k + 1) by lia. rewrite Z.pow_add_r by lia. change (2 ^ 1) with 2.
  destruct (Z.eqb_spec i 0) as [->|Hne].
  - replace (n - 1 - 0 <? n) with true by (symmetry; apply Z.ltb_lt; lia). replace (n - 1 - 0 + 1 <? n) with false by (symmetry; apply Z.ltb_ge; lia). cbn [xorb Z.b2z]. lia.
  - replace (n - 1 - i <? n) with true by (symmetry; apply Z.ltb_lt; lia). replace (n - 1 - i + 1 <? n) with true by (symmetry; apply Z.ltb_lt; lia). cbn [xorb Z.b2z]. lia.
Qed.

Lemma cellat_adj n k : 1 <= n -> forall h, 0 <= h -> h + 1 < 2 ^ (Z.of_nat k * n) -> fadj n (cellat n k h) (cellat n k (h + 1)).
Proof.
  intros Hn. induction k as [|k IH]; intros h Hh Hh1; [cbn in Hh1; lia|]. assert (0 <= Z.of_nat k * n) as Hkn by nia. set (B := 2 ^ (Z.of_nat k * n)) in *. assert (0 < B) as HB by (apply pow2_pos; lia).
  assert (2 ^ (Z.of_nat (S k) * n) = 2 ^ n * B) as EB. { unfold B. rewrite <- Z.pow_add_r by lia. f_equal. lia. } rewrite EB in Hh1.
  pose proof (Z.div_mod h B ltac:(lia)) as Hdm. pose proof (Z.mod_pos_bound h B HB) as Hr. set (w := h / B) in *. set (h' := h mod B) in *. assert (0 <= w) as Hw by (apply Z.div_pos; lia).
  assert (h = w * B + h') as Eh by lia. destruct (Z.lt_ge_cases (h' + 1) B) as [Hin|Hout].
  - rewrite Eh. replace (w * B + h' + 1) with (w * B + (h' + 1)) by lia. eapply fadj_cong; [apply cellat_step; fold B; lia|apply cellat_step; fold B; lia|]. apply comb_fadj, tall_fadj. unfold turn. fold B.
    destruct (Z.odd w).
    + apply fadj_sym. replace (B - 1 - h') with (B - 1 - (h' + 1) + 1) by lia. apply IH; lia.
    + apply IH; lia.
  - assert (h' = B - 1) as Eh' by lia. assert (w + 1 < 2 ^ n) as Hw1 by nia. rewrite Eh. replace (w * B + h' + 1) with ((w + 1) * B + 0) by lia.
    eapply fadj_cong; [apply cellat_step; fold B; lia|apply cellat_step; fold B; lia|]. apply crossing; [exact Hn|exact Hw|exact Hw1| |].
    + unfold turn, front. fold B. rewrite Eh'. destruct (Z.odd w); [replace (B - 1 - (B - 1)) with 0 by lia; apply cellat_first, Hn|apply cellat_last, Hn].
    + unfold turn, front. fold B. rewrite Z.odd_add. change (Z.odd 1) with true. rewrite xorb_true_r. destruct (Z.odd w); cbn [negb]; [apply cellat_first, Hn|rewrite Z.sub_0_r; apply cellat_last, Hn].
Qed.

(** * the code *)
Lemma cell_of_position b n X Y D : 1 <= n -> 1 <= b <= 64 -> words b n X -> axes_to_transpose X b n = Ok Y -> untranspose Y b n = Ok D ->
  reps n X (cellat n (Z.to_nat b) (position b D)).
Proof.
  intros Hn Hb W E U. destruct (to_transpose_and_back b n X Hn Hb W) as (Y' & E' & WY & E2). rewrite E in E'. injection E' as <-.
  destruct (words_of_position b n Y D Hn Hb WY U) as ([LD FD] & R). destruct (transpose_to_axes_reps n b Y _ Hn Hb R) as (X' & EX & RX). rewrite E2 in EX. injection EX as <-.
  eapply reps_feq; [exact RX|]. pose proof (position_range b D ltac:(lia) FD) as P. rewrite LD in P.
  eapply feq_trans; [apply undo_cong, dec_words; [exact Hn|rewrite Z2Nat.id by lia; exact P]|].
  unfold cellat. assert (Z.to_nat b = S (Z.to_nat (b - 1))) as -> by lia. replace b with (Z.of_nat (S (Z.to_nat (b - 1)))) at 1 by lia. apply feq_sym, lev_undo.
Qed.

Lemma fadj_neighbours n X Y f g : reps n X f -> reps n Y g -> fadj n f g -> neighbours X Y.
Proof.
  intros [LX HX] [LY HY] (j & Hj & E & H). exists (firstn (Z.to_nat j) X), (f j), (g j), (skipn (Z.to_nat (j + 1)) X). pose proof (HX j Hj) as Ej. pose proof (HY j Hj) as Ej'.
  assert (forall (Z0 : list Z) v, zget Z0 j = Ok v -> Z0 = firstn (Z.to_nat j) Z0 ++ v :: skipn (Z.to_nat (j + 1)) Z0) as Sp.
  { intros Z0 v Ev. apply zget_ok in Ev as [_ Ev]. replace (Z.to_nat (j + 1)) with (S (Z.to_nat j)) by lia. clear -Ev. revert Ev. generalize (Z.to_nat j) as q. induction Z0 as [|a Z0 IH]; intros [|q] Ev; cbn in *; [discriminate|discriminate|injection Ev as ->; reflexivity|f_equal; apply IH, Ev]. }
  split; [apply Sp, Ej|]. split; [|exact E]. rewrite (Sp Y _ Ej') at 1. f_equal; [|f_equal].
  - apply list_eq_zget; [unfold zlen in *; rewrite !firstn_length; lia|]. intros i Hi. unfold zlen in Hi, LX, LY. rewrite firstn_length in Hi.
    assert (forall (l : list Z), 0 <= i < j -> zget (firstn (Z.to_nat j) l) i = zget l i) as Fi. { intros l Hij. unfold zget. destruct (i <? 0); [reflexivity|]. rewrite nth_error_firstn_lt by lia. reflexivity. }
    rewrite !Fi by lia. rewrite HX, HY by lia. f_equal. symmetry. apply H; lia.
  - apply list_eq_zget; [unfold zlen in *; rewrite !skipn_length; lia|]. intros i Hi. unfold zlen in Hi, LX, LY. rewrite skipn_length in Hi.
    assert (forall (l : list Z), 0 <= i -> zget (skipn (Z.to_nat (j + 1)) l) i = zget l (j + 1 + i)) as Si.
    { intros l Hi0. unfold zget. replace (i <? 0) with false by (symmetry; apply Z.ltb_ge; lia). replace (j + 1 + i <? 0) with false by (symmetry; apply Z.ltb_ge; lia).
      replace (Z.to_nat (j + 1 + i)) with (Z.to_nat (j + 1) + Z.to_nat i)%nat by lia. generalize (Z.to_nat (j + 1)) as q. intros q. revert l. induction q as [|q IH]; intros l; [reflexivity|]. destruct l as [|a l]; cbn [skipn Nat.add nth_error]; [destruct (Z.to_nat i); reflexivity|apply IH]. }
    rewrite !Si by lia. rewrite HX, HY by lia. f_equal. symmetry. apply H; lia.
Qed.
