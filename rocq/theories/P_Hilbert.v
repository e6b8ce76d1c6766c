(** The loops of the Hilbert transformations as pure functions of coordinates, and their inverses. *)
From Verif Require Import Prelude M_Array M_Hilbert S_Hilbert P_Array P_Map.
Local Open Scope Z_scope.

(** * coordinates as functions *)
Definition reps (n : Z) (X : list Z) (f : Z -> Z) : Prop := zlen X = n /\ forall i, 0 <= i < n -> zget X i = Ok (f i).
Definition feq (n : Z) (f g : Z -> Z) : Prop := forall i, 0 <= i < n -> f i = g i.
Definition upd (f : Z -> Z) (i v : Z) : Z -> Z := fun k => if k =? i then v else f k.
Definition inr (b n : Z) (f : Z -> Z) : Prop := forall i, 0 <= i < n -> 0 <= f i < 2 ^ b.

Lemma upd_eq f i v : upd f i v i = v.
Proof. unfold upd. rewrite Z.eqb_refl. reflexivity. Qed.
Lemma upd_ne f i v k : k <> i -> upd f i v k = f k.
Proof. intros H. unfold upd. destruct (Z.eqb_spec k i); [contradiction|reflexivity]. Qed.

Lemma reps_feq n X f g : reps n X f -> feq n f g -> reps n X g.
Proof. intros [L H] E. split; [exact L|]. intros i Hi. rewrite <- E by exact Hi. apply H, Hi. Qed.
Lemma reps_eq n X f g : reps n X f -> reps n X g -> feq n f g.
Proof. intros [_ A] [_ B] i Hi. specialize (A i Hi). specialize (B i Hi). congruence. Qed.
Lemma reps_fun n X Y f : reps n X f -> reps n Y f -> X = Y.
Proof. intros [L A] [L' B]. apply list_eq_zget; [lia|]. intros i Hi. rewrite A, B by lia. reflexivity. Qed.
Lemma feq_refl n f : feq n f f. Proof. intros i _. reflexivity. Qed.
Lemma feq_sym n f g : feq n f g -> feq n g f. Proof. intros H i Hi. symmetry. apply H, Hi. Qed.
Lemma feq_trans n f g h : feq n f g -> feq n g h -> feq n f h. Proof. intros A B i Hi. rewrite A by exact Hi. apply B, Hi. Qed.
Lemma reps_of X : reps (zlen X) X (fun i => nth (Z.to_nat i) X 0).
Proof.
  split; [reflexivity|]. intros i Hi. apply zget_ok. split; [lia|]. apply nth_error_nth'. unfold zlen in Hi. lia.
Qed.
Lemma reps_mk n f : 0 <= n -> exists X, reps n X f.
Proof.
  intros Hn. exists (map f (zrange n)). split; [rewrite zlen_map, zlen_zrange; lia|]. intros i Hi. rewrite zget_map. rewrite zget_zrange by exact Hi. reflexivity.
Qed.

Lemma xor_into_reps n X f i v : reps n X f -> 0 <= i < n -> exists X', xor_into X i v = Ok X' /\ reps n X' (upd f i (Z.lxor (f i) v)).
Proof.
  intros [L H] Hi. unfold xor_into. rewrite (H i Hi). cbn [bind]. destruct (zset_in_range X i (Z.lxor (f i) v) ltac:(lia)) as (X' & E).
  exists X'. split; [exact E|]. split; [rewrite (zset_zlen _ _ _ _ E); exact L|]. intros k Hk. unfold upd. destruct (Z.eqb_spec k i) as [->|Hne].
  - apply (zset_get_eq _ _ _ _ E).
  - rewrite (zset_get_ne _ _ _ _ _ E) by congruence. apply H, Hk.
Qed.

(** * bits *)
Lemma u64_small x : 0 <= x < 2 ^ 64 -> u64 x = x.
Proof. intros H. unfold u64. apply Z.mod_small, H. Qed.
Lemma pow2_le a b : 0 <= a <= b -> 2 ^ a <= 2 ^ b.
Proof. intros H. apply Z.pow_le_mono_r; lia. Qed.
Lemma pow2_lt a b : 0 <= a < b -> 2 ^ a < 2 ^ b.
Proof. intros H. apply Z.pow_lt_mono_r; lia. Qed.
Lemma pow2_pos a : 0 <= a -> 0 < 2 ^ a.
Proof. intros H. apply Z.pow_pos_nonneg; lia. Qed.
Lemma ones_eq q : 2 ^ q - 1 = Z.ones q.
Proof. rewrite Z.ones_equiv. lia. Qed.
Lemma ones_bit q j : 0 <= q -> 0 <= j -> Z.testbit (2 ^ q - 1) j = (j <? q).
Proof. intros Hq Hj. rewrite ones_eq. destruct (Z.ltb_spec j q); [apply Z.ones_spec_low; lia|apply Z.ones_spec_high; lia]. Qed.
Lemma land_pow2 x q : 0 <= q -> negb (Z.land x (2 ^ q) =? 0) = Z.testbit x q.
Proof.
  intros Hq. destruct (Z.testbit x q) eqn:E.
  - apply Bool.negb_true_iff, Z.eqb_neq. intros C. assert (Z.testbit (Z.land x (2 ^ q)) q = false) as A by (rewrite C; apply Z.bits_0).
    rewrite Z.land_spec, E, Z.pow2_bits_true in A by lia. discriminate.
  - apply Bool.negb_false_iff, Z.eqb_eq. apply Z.bits_inj'. intros k Hk. rewrite Z.land_spec, Z.bits_0. destruct (Z.eq_dec k q) as [->|Hne]; [rewrite E; reflexivity|].
    rewrite Z.pow2_bits_false by lia. apply andb_false_r.
Qed.
Lemma bits_small x b : 0 <= x < 2 ^ b -> forall j, b <= j -> Z.testbit x j = false.
Proof.
  intros H j Hj. destruct (Z.eq_dec x 0) as [->|Hx]; [apply Z.bits_0|]. apply Z.bits_above_log2; [lia|].
  assert (Z.log2 x < b); [|lia]. apply Z.log2_lt_pow2; lia.
Qed.
Lemma bits_range x b : 0 <= b -> 0 <= x -> (forall j, b <= j -> Z.testbit x j = false) -> 0 <= x < 2 ^ b.
Proof.
  intros Hb Hx H. split; [exact Hx|]. destruct (Z.eq_dec x 0) as [->|Hne]; [apply pow2_pos; lia|]. apply Z.log2_lt_pow2; [lia|].
  destruct (Z.lt_ge_cases (Z.log2 x) b) as [|C]; [assumption|]. specialize (H _ C). rewrite Z.bit_log2 in H by lia. discriminate.
Qed.
Lemma lxor_range x y b : 0 <= b -> 0 <= x < 2 ^ b -> 0 <= y < 2 ^ b -> 0 <= Z.lxor x y < 2 ^ b.
Proof.
  intros Hb Hx Hy. apply bits_range; [exact Hb|apply Z.lxor_nonneg; lia|]. intros j Hj. rewrite Z.lxor_spec, (bits_small x b Hx j Hj), (bits_small y b Hy j Hj). reflexivity.
Qed.
Lemma land_range x y b : 0 <= b -> 0 <= y < 2 ^ b -> 0 <= Z.land x y < 2 ^ b.
Proof.
  intros Hb Hy. apply bits_range; [exact Hb|apply Z.land_nonneg; lia|]. intros j Hj. rewrite Z.land_spec, (bits_small y b Hy j Hj). apply andb_false_r.
Qed.
Lemma ones_range q b : 0 <= q <= b -> 0 <= 2 ^ q - 1 < 2 ^ b.
Proof. intros H. pose proof (pow2_le q b H). pose proof (pow2_pos q ltac:(lia)). lia. Qed.

(** * one exchange *)
Definition fstep (q : Z) (f : Z -> Z) (i : Z) : Z -> Z :=
  if Z.testbit (f i) q then upd f 0 (Z.lxor (f 0) (2 ^ q - 1))
  else let t := Z.land (Z.lxor (f 0) (f i)) (2 ^ q - 1) in
       let f1 := upd f 0 (Z.lxor (f 0) t) in upd f1 i (Z.lxor (f1 i) t).

Lemma exchange_reps n X f q i : 0 <= q < 64 -> 0 <= i < n -> reps n X f ->
  exists X', exchange (2 ^ q) X i = Ok X' /\ reps n X' (fstep q f i).
Proof.
  intros Hq Hi R. unfold exchange, fstep. rewrite u64_small by (apply ones_range; lia). rewrite (proj2 R i Hi). cbn [bind]. rewrite land_pow2 by lia.
  destruct (Z.testbit (f i) q); [apply xor_into_reps; [exact R|lia]|]. rewrite (proj2 R 0) by lia. cbn [bind].
  set (t := Z.land _ _). destruct (xor_into_reps n X f 0 t R ltac:(lia)) as (X1 & E1 & R1). rewrite E1. cbn [bind].
  apply xor_into_reps; [exact R1|lia].
Qed.

Lemma fstep_cong n q f g i : 0 <= i < n -> feq n f g -> feq n (fstep q f i) (fstep q g i).
Proof.
  intros Hi H. assert (f i = g i) as Ei by (apply H; lia). assert (f 0 = g 0) as E0 by (apply H; lia).
  intros k Hk. unfold fstep. rewrite <- Ei, <- E0. destruct (Z.testbit (f i) q).
  - unfold upd. destruct (k =? 0); [reflexivity|]. apply H, Hk.
  - cbv zeta. unfold upd. destruct (k =? i); [destruct (i =? 0); congruence|]. destruct (k =? 0); [reflexivity|]. apply H, Hk.
Qed.

Lemma testbit_lxor_ones x q : 0 <= q -> Z.testbit (Z.lxor x (2 ^ q - 1)) q = Z.testbit x q.
Proof. intros H. rewrite Z.lxor_spec, ones_bit by lia. rewrite Z.ltb_irrefl. apply xorb_false_r. Qed.
Lemma testbit_lxor_land x y q : 0 <= q -> Z.testbit (Z.lxor x (Z.land y (2 ^ q - 1))) q = Z.testbit x q.
Proof. intros H. rewrite Z.lxor_spec, Z.land_spec, ones_bit by lia. rewrite Z.ltb_irrefl, andb_false_r. apply xorb_false_r. Qed.
Lemma lxor_twice x y : Z.lxor (Z.lxor x y) y = x.
Proof. rewrite Z.lxor_assoc, Z.lxor_nilpotent, Z.lxor_0_r. reflexivity. Qed.

Lemma fstep_invol n q f i : 0 <= q -> 0 <= i < n -> feq n (fstep q (fstep q f i) i) f.
Proof.
  intros Hq Hi k Hk. unfold fstep at 2. destruct (Z.testbit (f i) q) eqn:Eb.
  - unfold fstep. assert (Z.testbit (upd f 0 (Z.lxor (f 0) (2 ^ q - 1)) i) q = true) as ->.
    { unfold upd. destruct (Z.eqb_spec i 0) as [->|]; [rewrite testbit_lxor_ones by exact Hq; exact Eb|exact Eb]. }
    rewrite upd_eq, lxor_twice. unfold upd. destruct (Z.eqb_spec k 0) as [->|]; reflexivity.
  - cbv zeta. set (t := Z.land (Z.lxor (f 0) (f i)) (2 ^ q - 1)). unfold fstep. destruct (Z.eq_dec i 0) as [->|Hi0].
    + assert (t = 0) as ->. { unfold t. rewrite Z.lxor_nilpotent. reflexivity. } rewrite !upd_eq, !Z.lxor_0_r, Eb. cbv zeta.
      rewrite ?upd_eq. rewrite Z.lxor_nilpotent, Z.land_0_l, !Z.lxor_0_r. unfold upd. destruct (Z.eqb_spec k 0) as [->|]; reflexivity.
    + rewrite !upd_eq. rewrite !(upd_ne _ 0 _ i Hi0). rewrite (upd_ne _ i _ 0) by lia. rewrite upd_eq.
      assert (Z.testbit (Z.lxor (f i) t) q = false) as ->. { unfold t. rewrite testbit_lxor_land by exact Hq. exact Eb. }
      assert (Z.lxor (Z.lxor (f 0) t) (Z.lxor (f i) t) = Z.lxor (f 0) (f i)) as ->.
      { apply Z.bits_inj'. intros j _. rewrite !Z.lxor_spec. destruct (Z.testbit (f 0) j), (Z.testbit (f i) j), (Z.testbit t j); reflexivity. }
      fold t. cbv zeta. unfold upd. repeat (first [rewrite Z.eqb_refl|rewrite (proj2 (Z.eqb_neq i 0) Hi0)|rewrite (proj2 (Z.eqb_neq 0 i)) by lia|rewrite lxor_twice]).
      destruct (Z.eqb_spec k i) as [->|]; [reflexivity|]. destruct (Z.eqb_spec k 0) as [->|]; reflexivity.
Qed.

Lemma fstep_range n b q f i : 0 <= q <= b -> 0 <= i < n -> inr b n f -> inr b n (fstep q f i).
Proof.
  intros Hq Hi H k Hk. unfold fstep. pose proof (H 0 ltac:(lia)) as H0'. pose proof (H i Hi) as Hi'. pose proof (ones_range q b Hq) as Ho. destruct (Z.testbit (f i) q).
  - unfold upd. destruct (k =? 0); [apply lxor_range; lia|apply H, Hk].
  - cbv zeta. set (t := Z.land _ _). assert (0 <= t < 2 ^ b) by (apply land_range; lia).
    unfold upd. destruct (k =? i); [apply lxor_range; [lia| |lia]; destruct (i =? 0); [apply lxor_range; lia|lia]|]. destruct (k =? 0); [apply lxor_range; lia|apply H, Hk].
Qed.

(** * folds of exchanges *)
Lemma foldM_reps {A} n (op : list Z -> A -> res (list Z)) (fop : (Z -> Z) -> A -> Z -> Z) (l : list A) :
  (forall a X f, In a l -> reps n X f -> exists X', op X a = Ok X' /\ reps n X' (fop f a)) ->
  forall X f, reps n X f -> exists X', foldM op l X = Ok X' /\ reps n X' (fold_left fop l f).
Proof.
  induction l as [|a l IH]; intros Hs X f R; [cbn; eauto|]. cbn [foldM fold_left]. destruct (Hs a X f (or_introl eq_refl) R) as (X1 & E1 & R1). rewrite E1. cbn [bind].
  apply IH; [|exact R1]. intros; apply Hs; [right; assumption|assumption].
Qed.
Lemma fold_cong {A} n (fop : (Z -> Z) -> A -> Z -> Z) (l : list A) :
  (forall a f g, In a l -> feq n f g -> feq n (fop f a) (fop g a)) -> forall f g, feq n f g -> feq n (fold_left fop l f) (fold_left fop l g).
Proof. induction l as [|a l IH]; intros H f g E; [exact E|]. cbn. apply IH; [intros; apply H; [right; assumption|assumption]|]. apply H; [left; reflexivity|exact E]. Qed.
Lemma fold_undo {A} n (fop gop : (Z -> Z) -> A -> Z -> Z) (l : list A) :
  (forall a f g, In a l -> feq n f g -> feq n (gop f a) (gop g a)) -> (forall a f, In a l -> feq n (gop (fop f a) a) f) ->
  forall f, feq n (fold_left gop (rev l) (fold_left fop l f)) f.
Proof.
  induction l as [|a l IH]; intros C H f; [apply feq_refl|]. cbn [rev fold_left]. rewrite fold_left_app. cbn [fold_left].
  eapply feq_trans; [apply C; [left; reflexivity|apply IH; intros; [apply C; [right; assumption|assumption]|apply H; right; assumption]]|]. apply H. left. reflexivity.
Qed.
Lemma fold_range {A} n b (fop : (Z -> Z) -> A -> Z -> Z) (l : list A) :
  (forall a f, In a l -> inr b n f -> inr b n (fop f a)) -> forall f, inr b n f -> inr b n (fold_left fop l f).
Proof. induction l as [|a l IH]; intros H f E; [exact E|]. cbn. apply IH; [intros; apply H; [right; assumption|assumption]|]. apply H; [left; reflexivity|exact E]. Qed.

Definition fdown (n q : Z) (f : Z -> Z) : Z -> Z := fold_left (fstep q) (rev (zrange n)) f.
Definition fup (n q : Z) (f : Z -> Z) : Z -> Z := fold_left (fstep q) (zrange n) f.
Definition undo (n b : Z) (f : Z -> Z) : Z -> Z := fold_left (fun f q => fdown n q f) (zfromto 1 b) f.
Definition redo (n b : Z) (f : Z -> Z) : Z -> Z := fold_left (fun f q => fup n q f) (rev (zfromto 1 b)) f.

Lemma fdown_cong n q f g : feq n f g -> feq n (fdown n q f) (fdown n q g).
Proof. apply fold_cong. intros i f' g' Hi E. rewrite <- in_rev in Hi. apply in_zrange in Hi. apply fstep_cong; assumption. Qed.
Lemma fup_cong n q f g : feq n f g -> feq n (fup n q f) (fup n q g).
Proof. apply fold_cong. intros i f' g' Hi E. apply in_zrange in Hi. apply fstep_cong; assumption. Qed.
Lemma fdown_fup n q f : 0 <= q -> feq n (fdown n q (fup n q f)) f.
Proof.
  intros Hq. unfold fdown, fup. apply (fold_undo n (fstep q) (fstep q)).
  - intros i f' g' Hi E. apply in_zrange in Hi. apply fstep_cong; assumption.
  - intros i f' Hi. apply in_zrange in Hi. apply fstep_invol; assumption.
Qed.
Lemma fup_fdown n q f : 0 <= q -> feq n (fup n q (fdown n q f)) f.
Proof.
  intros Hq. unfold fdown, fup. rewrite <- (rev_involutive (zrange n)) at 1. apply (fold_undo n (fstep q) (fstep q)).
  - intros i f' g' Hi E. rewrite <- in_rev in Hi. apply in_zrange in Hi. apply fstep_cong; assumption.
  - intros i f' Hi. rewrite <- in_rev in Hi. apply in_zrange in Hi. apply fstep_invol; assumption.
Qed.
Lemma redo_undo n b f : feq n (redo n b (undo n b f)) f.
Proof.
  unfold redo, undo. apply (fold_undo n (fun f q => fdown n q f) (fun f q => fup n q f)).
  - intros q f' g' Hq E. apply fup_cong, E.
  - intros q f' Hq. apply in_zfromto in Hq. apply fup_fdown. lia.
Qed.
Lemma undo_redo n b f : feq n (undo n b (redo n b f)) f.
Proof.
  unfold redo, undo. rewrite <- (rev_involutive (zfromto 1 b)) at 1. apply (fold_undo n (fun f q => fup n q f) (fun f q => fdown n q f)).
  - intros q f' g' Hq E. apply fdown_cong, E.
  - intros q f' Hq. rewrite <- in_rev in Hq. apply in_zfromto in Hq. apply fdown_fup. lia.
Qed.
Lemma undo_cong n b f g : feq n f g -> feq n (undo n b f) (undo n b g).
Proof. apply fold_cong. intros q f' g' _ E. apply fdown_cong, E. Qed.
Lemma redo_cong n b f g : feq n f g -> feq n (redo n b f) (redo n b g).
Proof. apply fold_cong. intros q f' g' _ E. apply fup_cong, E. Qed.
Lemma fdown_range n b q f : 0 <= q <= b -> inr b n f -> inr b n (fdown n q f).
Proof. intros Hq. apply fold_range. intros i f' Hi E. rewrite <- in_rev in Hi. apply in_zrange in Hi. apply fstep_range; assumption. Qed.
Lemma undo_range n b f : inr b n f -> inr b n (undo n b f).
Proof. apply fold_range. intros q f' Hq E. apply in_zfromto in Hq. apply fdown_range; [lia|exact E]. Qed.
Lemma redo_range n b f : inr b n f -> inr b n (redo n b f).
Proof.
  apply fold_range. intros q f' Hq E. rewrite <- in_rev in Hq. apply in_zfromto in Hq. unfold fup. revert E. apply fold_range. intros i f'' Hi E. apply in_zrange in Hi. apply fstep_range; [lia|assumption..].
Qed.

(** * the loops over the bits *)
Lemma loop_up_reps n b (op : list Z -> Z -> res (list Z)) (fop : (Z -> Z) -> Z -> Z -> Z) :
  b <= 64 -> (forall q X f, 1 <= q < b -> reps n X f -> exists X', op X (2 ^ q) = Ok X' /\ reps n X' (fop f q)) ->
  forall fuel q X f, 1 <= q <= b -> b - q <= Z.of_nat fuel -> reps n X f ->
  exists X', loop_up fuel (u64 (2 ^ b)) (u64 (2 ^ q)) op X = Ok X' /\ reps n X' (fold_left fop (zfromto q b) f).
Proof.
  intros Hb Hs. induction fuel as [|fuel IH]; intros q X f Hq Hf R.
  - assert (q = b) as -> by lia. cbn [loop_up]. rewrite Z.eqb_refl. rewrite zfromto_nil by lia. cbn. eauto.
  - destruct (Z.eq_dec q b) as [->|Hne]; [cbn [loop_up]; rewrite Z.eqb_refl; rewrite zfromto_nil by lia; cbn; eauto|].
    assert (u64 (2 ^ q) = 2 ^ q) as Eq. { apply u64_small. pose proof (pow2_lt q 64 ltac:(lia)). pose proof (pow2_pos q ltac:(lia)). lia. }
    assert (u64 (2 ^ q) <> u64 (2 ^ b)) as Hd.
    { rewrite Eq. destruct (Z.eq_dec b 64) as [->|]; [unfold u64; rewrite Z.mod_same by lia; pose proof (pow2_pos q ltac:(lia)); lia|].
      rewrite (u64_small (2 ^ b)); [pose proof (pow2_lt q b ltac:(lia)); lia|]. pose proof (pow2_lt b 64 ltac:(lia)). pose proof (pow2_pos b ltac:(lia)). lia. }
    cbn [loop_up]. rewrite (proj2 (Z.eqb_neq _ _) Hd). rewrite Eq. destruct (Hs q X f ltac:(lia) R) as (X1 & E1 & R1). rewrite E1. cbn [bind].
    assert (shl (2 ^ q) 1 = Ok (u64 (2 ^ (q + 1)))) as ->. { unfold shl. change ((0 <=? 1) && (1 <? 64)) with true. cbv iota. rewrite Z.shiftl_mul_pow2 by lia. rewrite <- Z.pow_add_r by lia. reflexivity. }
    cbn [bind]. rewrite (zfromto_cons q b) by lia. cbn [fold_left]. apply IH; [lia|lia|exact R1].
Qed.

Lemma loop_down_gen {A B} (Rel : A -> B -> Prop) (op : A -> Z -> res A) (fop : B -> Z -> B) b :
  b <= 64 -> (forall q X f, 1 <= q < b -> Rel X f -> exists X', op X (2 ^ q) = Ok X' /\ Rel X' (fop f q)) ->
  forall fuel q X f, 0 <= q < b -> q <= Z.of_nat fuel -> Rel X f ->
  exists X', loop_down fuel (2 ^ q) op X = Ok X' /\ Rel X' (fold_left fop (rev (zfromto 1 (q + 1))) f).
Proof.
  intros Hb Hs. induction fuel as [|fuel IH]; intros q X f Hq Hf R.
  - assert (q = 0) as -> by lia. cbn. eauto.
  - destruct (Z.eq_dec q 0) as [->|Hne]; [cbn; eauto|]. cbn [loop_down].
    assert (1 < 2 ^ q) as Hp by (change 1 with (2 ^ 0); apply pow2_lt; lia). rewrite (proj2 (Z.leb_gt _ _) Hp).
    destruct (Hs q X f ltac:(lia) R) as (X1 & E1 & R1). rewrite E1. cbn [bind].
    assert (shr (2 ^ q) 1 = Ok (2 ^ (q - 1))) as ->.
    { unfold shr. change ((0 <=? 1) && (1 <? 64)) with true. cbv iota. rewrite Z.shiftr_div_pow2 by lia. f_equal. replace q with (q - 1 + 1) at 1 by lia. rewrite Z.pow_add_r by lia. apply Z.div_mul. lia. }
    cbn [bind]. rewrite (zfromto_snoc 1 q) by lia. rewrite rev_app_distr. cbn [rev app fold_left].
    destruct (IH (q - 1) X1 (fop f q) ltac:(lia) ltac:(lia) R1) as (X2 & E2 & R2). replace (q - 1 + 1) with q in R2 by lia. eauto.
Qed.

(** * the Gray code *)
Definition dec (n : Z) (f : Z -> Z) : Z -> Z := fun i => Z.lxor (f i) (if i =? 0 then Z.shiftr (f (n - 1)) 1 else f (i - 1)).
Fixpoint pxor (f : Z -> Z) (k : nat) : Z := match k with O => f 0 | S k' => Z.lxor (f (Z.of_nat k)) (pxor f k') end.
Definition px (f : Z -> Z) (i : Z) : Z := pxor f (Z.to_nat i).
Fixpoint tval (z : Z) (k : nat) : Z := match k with O => 0 | S k => Z.lxor (tval z k) (if Z.testbit z (Z.of_nat k) then 2 ^ Z.of_nat k - 1 else 0) end.
Definition enc (n b : Z) (f : Z -> Z) : Z -> Z := fun i => Z.lxor (px f i) (tval (px f (n - 1)) (Z.to_nat b)).

Lemma px_0 f : px f 0 = f 0. Proof. reflexivity. Qed.
Lemma px_step f i : 1 <= i -> px f i = Z.lxor (f i) (px f (i - 1)).
Proof. intros H. unfold px. replace (Z.to_nat i) with (S (Z.to_nat (i - 1))) by lia. cbn [pxor]. do 2 f_equal. lia. Qed.
Lemma px_range b n f : 0 <= b -> inr b n f -> forall i, 0 <= i < n -> 0 <= px f i < 2 ^ b.
Proof.
  intros Hb H i Hi. unfold px. assert (Z.of_nat (Z.to_nat i) < n) as K by lia. revert K. induction (Z.to_nat i) as [|k IH]; intros K; [cbn; apply H; lia|].
  cbn [pxor]. apply lxor_range; [exact Hb|apply H; lia|apply IH; lia].
Qed.
Lemma tval_bit z k j : 0 <= j -> Z.testbit (tval z k) j = xorb (Z.testbit (tval z k) (j + 1)) ((j + 1 <? Z.of_nat k) && Z.testbit z (j + 1)).
Proof.
  intros Hj. induction k as [|k IH].
  - cbn [tval]. rewrite !Z.bits_0. replace (j + 1 <? Z.of_nat 0) with false by (symmetry; apply Z.ltb_ge; lia). reflexivity.
  - cbn [tval]. rewrite !Z.lxor_spec, IH. destruct (Z.testbit z (Z.of_nat k)) eqn:E.
    + rewrite !ones_bit by lia. destruct (Z.eq_dec (j + 1) (Z.of_nat k)) as [Ek|Ek].
      * rewrite Ek, E. replace (Z.of_nat k <? Z.of_nat k) with false by (symmetry; apply Z.ltb_ge; lia).
        replace (j <? Z.of_nat k) with true by (symmetry; apply Z.ltb_lt; lia). replace (Z.of_nat k <? Z.of_nat (S k)) with true by (symmetry; apply Z.ltb_lt; lia).
        rewrite andb_false_l, xorb_false_r, andb_true_l. destruct (Z.testbit (tval z k) (Z.of_nat k)); reflexivity.
      * replace (j <? Z.of_nat k) with (j + 1 <? Z.of_nat k) by (apply Bool.eq_iff_eq_true; rewrite !Z.ltb_lt; lia).
        replace (j + 1 <? Z.of_nat (S k)) with (j + 1 <? Z.of_nat k) by (apply Bool.eq_iff_eq_true; rewrite !Z.ltb_lt; lia).
        destruct (Z.testbit (tval z k) (j + 1)), (j + 1 <? Z.of_nat k), (Z.testbit z (j + 1)); reflexivity.
    + rewrite !Z.bits_0, !xorb_false_r. destruct (Z.eq_dec (j + 1) (Z.of_nat k)) as [Ek|Ek].
      * rewrite Ek, E, !andb_false_r. reflexivity.
      * replace (j + 1 <? Z.of_nat (S k)) with (j + 1 <? Z.of_nat k) by (apply Bool.eq_iff_eq_true; rewrite !Z.ltb_lt; lia). reflexivity.
Qed.
Lemma tval_range z k : 0 <= tval z k < 2 ^ Z.of_nat k.
Proof.
  induction k as [|k IH]; [cbn; lia|]. cbn [tval]. pose proof (pow2_lt (Z.of_nat k) (Z.of_nat (S k)) ltac:(lia)). apply lxor_range; [lia|lia|].
  destruct (Z.testbit z (Z.of_nat k)); [apply ones_range; lia|lia].
Qed.
Lemma tval_fix z b : 0 <= b -> 0 <= z < 2 ^ b -> Z.shiftr (Z.lxor z (tval z (Z.to_nat b))) 1 = tval z (Z.to_nat b).
Proof.
  intros Hb Hz. apply Z.bits_inj'. intros j Hj. rewrite Z.shiftr_spec by lia. rewrite Z.lxor_spec. rewrite (tval_bit z (Z.to_nat b) j Hj). rewrite Z2Nat.id by lia.
  destruct (Z.ltb_spec (j + 1) b); [rewrite andb_true_l; apply xorb_comm|]. rewrite (bits_small z b Hz (j + 1)) by lia. apply xorb_comm.
Qed.
Lemma shift_fix d : 0 <= d -> Z.shiftr d 1 = d -> d = 0.
Proof. intros Hd E. rewrite Z.shiftr_div_pow2 in E by lia. change (2 ^ 1) with 2 in E. lia. Qed.
Lemma tval_unique z b t : 0 <= b -> 0 <= z < 2 ^ b -> 0 <= t -> Z.shiftr (Z.lxor z t) 1 = t -> t = tval z (Z.to_nat b).
Proof.
  intros Hb Hz Ht E. apply Z.lxor_eq. apply shift_fix; [apply Z.lxor_nonneg; pose proof (tval_range z (Z.to_nat b)); lia|].
  rewrite <- E at 2. rewrite <- (tval_fix z b Hb Hz) at 2. rewrite <- Z.shiftr_lxor. f_equal.
  apply Z.bits_inj'. intros j _. rewrite !Z.lxor_spec. destruct (Z.testbit z j), (Z.testbit t j), (Z.testbit (tval z (Z.to_nat b)) j); reflexivity.
Qed.

Lemma dec_cong n f g : feq n f g -> feq n (dec n f) (dec n g).
Proof. intros H i Hi. unfold dec. rewrite (H i Hi). destruct (Z.eqb_spec i 0); [rewrite (H (n - 1)) by lia|rewrite (H (i - 1)) by lia]; reflexivity. Qed.
Lemma px_cong n f g : feq n f g -> feq n (px f) (px g).
Proof.
  intros H i Hi. unfold px. assert (Z.of_nat (Z.to_nat i) < n) as K by lia. revert K. induction (Z.to_nat i) as [|k IH]; intros K; [cbn; apply H; lia|].
  cbn [pxor]. rewrite H by lia. rewrite IH by lia. reflexivity.
Qed.
Lemma enc_cong n b f g : feq n f g -> feq n (enc n b f) (enc n b g).
Proof. intros H i Hi. unfold enc. rewrite (px_cong n f g H i Hi), (px_cong n f g H (n - 1)) by lia. reflexivity. Qed.
Lemma dec_enc n b f : 0 <= b -> inr b n f -> feq n (dec n (enc n b f)) f.
Proof.
  intros Hb H i Hi. unfold dec, enc. pose proof (px_range b n f Hb H (n - 1) ltac:(lia)) as Hz. destruct (Z.eqb_spec i 0) as [->|Hne].
  - rewrite (tval_fix _ b Hb Hz). apply lxor_twice.
  - rewrite (px_step f i) by lia. apply Z.bits_inj'. intros j _. rewrite !Z.lxor_spec.
    destruct (Z.testbit (f i) j), (Z.testbit (px f (i - 1)) j), (Z.testbit (tval _ _) j); reflexivity.
Qed.
Lemma px_dec n f : forall i, 0 <= i < n -> px (dec n f) i = Z.lxor (f i) (Z.shiftr (f (n - 1)) 1).
Proof.
  intros i Hi. unfold px. replace i with (Z.of_nat (Z.to_nat i)) at 2 by lia. assert (Z.of_nat (Z.to_nat i) < n) as K by lia. revert K. clear Hi.
  induction (Z.to_nat i) as [|k IH]; intros K; [reflexivity|]. cbn [pxor]. rewrite IH by lia. unfold dec. destruct (Z.eqb_spec (Z.of_nat (S k)) 0); [lia|].
  replace (Z.of_nat (S k) - 1) with (Z.of_nat k) by lia. apply Z.bits_inj'. intros j _. rewrite !Z.lxor_spec.
  destruct (Z.testbit (f (Z.of_nat (S k))) j), (Z.testbit (f (Z.of_nat k)) j), (Z.testbit (Z.shiftr _ _) j); reflexivity.
Qed.
Lemma shiftr_range x b : 0 <= x < 2 ^ b -> 0 <= Z.shiftr x 1 < 2 ^ b.
Proof. intros H. rewrite Z.shiftr_div_pow2 by lia. change (2 ^ 1) with 2. lia. Qed.
Lemma enc_dec n b f : 0 <= b -> 1 <= n -> inr b n f -> feq n (enc n b (dec n f)) f.
Proof.
  intros Hb Hn H i Hi. unfold enc. rewrite !px_dec by lia. pose proof (H (n - 1) ltac:(lia)) as Hl. pose proof (shiftr_range _ _ Hl) as Hs.
  rewrite <- (tval_unique (Z.lxor (f (n - 1)) (Z.shiftr (f (n - 1)) 1)) b (Z.shiftr (f (n - 1)) 1)).
  - apply lxor_twice.
  - exact Hb.
  - apply lxor_range; lia.
  - lia.
  - rewrite lxor_twice. reflexivity.
Qed.
Lemma dec_range n b f : 0 <= b -> 1 <= n -> inr b n f -> inr b n (dec n f).
Proof.
  intros Hb Hn H i Hi. unfold dec. apply lxor_range; [exact Hb|apply H, Hi|]. destruct (Z.eqb_spec i 0); [apply shiftr_range, H; lia|apply H; lia].
Qed.
Lemma enc_range n b f : 0 <= b -> 1 <= n -> inr b n f -> inr b n (enc n b f).
Proof.
  intros Hb Hn H i Hi. unfold enc. apply lxor_range; [exact Hb|apply (px_range b n f Hb H i Hi)|]. pose proof (tval_range (px f (n - 1)) (Z.to_nat b)). rewrite Z2Nat.id in * by lia. lia.
Qed.

(** * the two transformations *)
Lemma decode_reps n X f : 1 <= n -> reps n X f -> exists X', foldM (fun X i => xp <- zget X (i - 1) ;; xor_into X i xp) (rev (zfromto 1 n)) X = Ok X' /\
  reps n X' (fun i => if i =? 0 then f 0 else Z.lxor (f i) (f (i - 1))).
Proof.
  intros Hn R.
  assert (forall k, 0 <= k < n -> exists X', foldM (fun X i => xp <- zget X (i - 1) ;; xor_into X i xp) (rev (zfromto (n - k) n)) X = Ok X' /\
    reps n X' (fun i => if i <? n - k then f i else Z.lxor (f i) (f (i - 1)))) as K.
  { intros k Hk. rewrite <- (Z2Nat.id k) in * by lia. induction (Z.to_nat k) as [|m IH].
    - rewrite zfromto_nil by lia. exists X. split; [reflexivity|]. eapply reps_feq; [exact R|]. intros i Hi. cbv beta. rewrite (proj2 (Z.ltb_lt _ _)) by lia. reflexivity.
    - destruct IH as (X1 & E1 & R1); [lia|]. rewrite (zfromto_cons (n - Z.of_nat (S m))) by lia. cbn [rev]. rewrite foldM_app.
      replace (n - Z.of_nat (S m) + 1) with (n - Z.of_nat m) by lia. rewrite E1. cbn [bind foldM]. set (p := n - Z.of_nat (S m)).
      rewrite (proj2 R1 (p - 1)) by lia. cbn [bind]. match goal with |- context [xor_into X1 p ?w] => set (v := w) end. destruct (xor_into_reps n X1 _ p v R1 ltac:(lia)) as (X2 & E2 & R2). rewrite E2. cbn [bind]. exists X2. split; [reflexivity|].
      eapply reps_feq; [exact R2|]. intros i Hi. unfold upd, v. cbv beta. replace (p - 1 <? n - Z.of_nat m) with true by (symmetry; apply Z.ltb_lt; lia).
      destruct (Z.eqb_spec i p) as [->|Hne].
      + rewrite Z.ltb_irrefl. replace (p <? n - Z.of_nat m) with true by (symmetry; apply Z.ltb_lt; lia). reflexivity.
      + replace (i <? p) with (i <? n - Z.of_nat m); [reflexivity|]. apply Bool.eq_iff_eq_true. rewrite !Z.ltb_lt. lia. }
  destruct (K (n - 1) ltac:(lia)) as (X' & E & R'). replace (n - (n - 1)) with 1 in * by lia. exists X'. split; [exact E|].
  eapply reps_feq; [exact R'|]. intros i Hi. cbv beta. destruct (Z.ltb_spec i 1), (Z.eqb_spec i 0); try lia; try reflexivity. subst i. reflexivity.
Qed.
Lemma encode_reps n X f : 1 <= n -> reps n X f -> exists X', foldM (fun X i => xp <- zget X (i - 1) ;; xor_into X i xp) (zfromto 1 n) X = Ok X' /\ reps n X' (px f).
Proof.
  intros Hn R.
  assert (forall k, 1 <= k <= n -> exists X', foldM (fun X i => xp <- zget X (i - 1) ;; xor_into X i xp) (zfromto 1 k) X = Ok X' /\
    reps n X' (fun i => if i <? k then px f i else f i)) as K.
  { intros k Hk. replace k with (1 + Z.of_nat (Z.to_nat (k - 1))) in * by lia. induction (Z.to_nat (k - 1)) as [|m IH].
    - rewrite zfromto_nil by lia. exists X. split; [reflexivity|]. eapply reps_feq; [exact R|]. intros i Hi. cbv beta.
      destruct (Z.ltb_spec i (1 + Z.of_nat 0)); [|reflexivity]. assert (i = 0) as -> by lia. reflexivity.
    - destruct IH as (X1 & E1 & R1); [lia|]. set (p := 1 + Z.of_nat m) in *. replace (1 + Z.of_nat (S m)) with (p + 1) by lia. rewrite (zfromto_snoc 1 p) by lia. rewrite foldM_app.
      rewrite E1. cbn [bind foldM]. rewrite (proj2 R1 (p - 1)) by lia. cbn [bind]. match goal with |- context [xor_into X1 p ?w] => set (v := w) end.
      destruct (xor_into_reps n X1 _ p v R1 ltac:(lia)) as (X2 & E2 & R2). rewrite E2. cbn [bind]. exists X2. split; [reflexivity|].
      eapply reps_feq; [exact R2|]. intros i Hi. unfold upd, v. cbv beta. replace (p - 1 <? p) with true by (symmetry; apply Z.ltb_lt; lia).
      destruct (Z.eqb_spec i p) as [->|Hne].
      + rewrite Z.ltb_irrefl. replace (p <? p + 1) with true by (symmetry; apply Z.ltb_lt; lia). rewrite (px_step f p) by lia. reflexivity.
      + replace (i <? p + 1) with (i <? p); [reflexivity|]. apply Bool.eq_iff_eq_true. rewrite !Z.ltb_lt. lia. }
  destruct (K n ltac:(lia)) as (X' & E & R'). exists X'. split; [exact E|]. eapply reps_feq; [exact R'|]. intros i Hi. cbv beta. rewrite (proj2 (Z.ltb_lt _ _)) by lia. reflexivity.
Qed.

Lemma exchange_level n q : 0 <= q < 64 -> forall l X f, (forall i, In i l -> 0 <= i < n) -> reps n X f ->
  exists X', foldM (exchange (2 ^ q)) l X = Ok X' /\ reps n X' (fold_left (fstep q) l f).
Proof. intros Hq l X f Hl R. apply foldM_reps; [|exact R]. intros i Y g Hi RY. apply exchange_reps; auto. Qed.

Lemma transpose_to_axes_reps n b X f : 1 <= n -> 1 <= b <= 64 -> reps n X f ->
  exists X', transpose_to_axes X b n = Ok X' /\ reps n X' (undo n b (dec n f)).
Proof.
  intros Hn Hb R. unfold transpose_to_axes.
  assert (shl 2 (b - 1) = Ok (u64 (2 ^ b))) as ->.
  { unfold shl. replace ((0 <=? b - 1) && (b - 1 <? 64)) with true by (symmetry; apply andb_true_iff; rewrite Z.leb_le, Z.ltb_lt; lia).
    rewrite Z.shiftl_mul_pow2 by lia. change 2 with (2 ^ 1) at 1. rewrite <- Z.pow_add_r by lia. do 3 f_equal. lia. }
  cbn [bind]. rewrite (proj2 R (n - 1)) by lia. cbn [bind]. change (shr (f (n - 1)) 1) with (Ok (Z.shiftr (f (n - 1)) 1)). cbn [bind].
  destruct (decode_reps n X f Hn R) as (X1 & E1 & R1). rewrite E1. cbn [bind].
  destruct (xor_into_reps n X1 _ 0 (Z.shiftr (f (n - 1)) 1) R1 ltac:(lia)) as (X2 & E2 & R2). rewrite E2. cbn [bind].
  assert (reps n X2 (dec n f)) as R2'.
  { eapply reps_feq; [exact R2|]. intros i Hi. unfold upd, dec. cbv beta. destruct (Z.eqb_spec i 0) as [->|]; reflexivity. }
  apply (loop_up_reps n b (fun X Q => foldM (exchange Q) (rev (zrange n)) X) (fun f q => fdown n q f)) with (fuel := 64%nat) (q := 1) (X := X2) (f := dec n f); [lia| |lia|lia|exact R2'].
  intros q Y g Hq RY. apply exchange_level; [lia| |exact RY]. intros i Hi. rewrite <- in_rev in Hi. apply in_zrange in Hi. exact Hi.
Qed.

Lemma tval_fold z k : fold_left (fun t q => if Z.testbit z q then Z.lxor t (2 ^ q - 1) else t) (rev (zfromto 1 (Z.of_nat k))) 0 = tval z k.
Proof.
  assert (forall l a t, fold_left (fun t q => if Z.testbit z q then Z.lxor t (2 ^ q - 1) else t) l (Z.lxor a t) =
    Z.lxor a (fold_left (fun t q => if Z.testbit z q then Z.lxor t (2 ^ q - 1) else t) l t)) as K.
  { induction l as [|q l IH]; intros a t; [reflexivity|]. cbn [fold_left]. destruct (Z.testbit z q); [rewrite Z.lxor_assoc|]; apply IH. }
  induction k as [|k IH]; [reflexivity|]. cbn [tval]. destruct k as [|k].
  - cbn. destruct (Z.odd z); reflexivity.
  - replace (Z.of_nat (S (S k))) with (Z.of_nat (S k) + 1) by lia. rewrite (zfromto_snoc 1) by lia. rewrite rev_app_distr. cbn [rev app fold_left].
    rewrite <- IH. destruct (Z.testbit z (Z.of_nat (S k))); [|rewrite Z.lxor_0_r; reflexivity].
    rewrite Z.lxor_0_l. rewrite <- (Z.lxor_0_r (2 ^ Z.of_nat (S k) - 1)) at 1. rewrite K. apply Z.lxor_comm.
Qed.

Lemma axes_to_transpose_reps n b X f : 1 <= n -> 1 <= b <= 64 -> reps n X f ->
  exists X', axes_to_transpose X b n = Ok X' /\ reps n X' (enc n b (redo n b f)).
Proof.
  intros Hn Hb R. unfold axes_to_transpose.
  assert (shl 1 (b - 1) = Ok (2 ^ (b - 1))) as ->.
  { unfold shl. replace ((0 <=? b - 1) && (b - 1 <? 64)) with true by (symmetry; apply andb_true_iff; rewrite Z.leb_le, Z.ltb_lt; lia).
    rewrite Z.shiftl_mul_pow2 by lia. rewrite Z.mul_1_l. f_equal. apply u64_small. pose proof (pow2_lt (b - 1) 64 ltac:(lia)). pose proof (pow2_pos (b - 1) ltac:(lia)). lia. }
  cbn [bind].
  destruct (loop_down_gen (reps n) (fun X Q => foldM (exchange Q) (zrange n) X) (fun f q => fup n q f) b) with (fuel := 64%nat) (q := b - 1) (X := X) (f := f) as (X1 & E1 & R1); [lia| |lia|lia|exact R|].
  { intros q Y g Hq RY. apply exchange_level; [lia| |exact RY]. intros i Hi. apply in_zrange in Hi. exact Hi. }
  rewrite E1. cbn [bind]. replace (b - 1 + 1) with b in R1 by lia. fold (redo n b f) in R1.
  destruct (encode_reps n X1 _ Hn R1) as (X2 & E2 & R2). rewrite E2. cbn [bind]. set (z := px (redo n b f) (n - 1)).
  destruct (loop_down_gen (@eq Z) (fun t Q => xl <- zget X2 (n - 1) ;; Ok (if negb (Z.land xl Q =? 0) then Z.lxor t (u64 (Q - 1)) else t))
    (fun t q => if Z.testbit z q then Z.lxor t (2 ^ q - 1) else t) b) with (fuel := 64%nat) (q := b - 1) (X := 0) (f := 0) as (t & E3 & R3); [lia| |lia|lia|reflexivity|].
  { intros q t t' Hq <-. rewrite (proj2 R2 (n - 1)) by lia. cbn [bind]. fold z. rewrite land_pow2 by lia. rewrite u64_small by (apply ones_range; lia). eauto. }
  rewrite E3. cbn [bind]. replace (b - 1 + 1) with (Z.of_nat (Z.to_nat b)) in R3 by lia. rewrite tval_fold in R3.
  unfold forM.
  assert (forall k, 0 <= k <= n -> exists X', foldM (fun X i => xor_into X i t) (zrange k) X2 = Ok X' /\ reps n X' (fun i => if i <? k then Z.lxor (px (redo n b f) i) t else px (redo n b f) i)) as K.
  { intros k Hk. rewrite <- (Z2Nat.id k) in * by lia. induction (Z.to_nat k) as [|m IH].
    - exists X2. split; [reflexivity|]. eapply reps_feq; [exact R2|]. intros i Hi. cbv beta. replace (i <? Z.of_nat 0) with false by (symmetry; apply Z.ltb_ge; lia). reflexivity.
    - destruct IH as (X3 & E4 & R4); [lia|]. replace (Z.of_nat (S m)) with (Z.of_nat m + 1) by lia. rewrite zrange_succ by lia. rewrite foldM_app, E4. cbn [bind foldM].
      destruct (xor_into_reps n X3 _ (Z.of_nat m) t R4 ltac:(lia)) as (X4 & E5 & R5). rewrite E5. cbn [bind]. exists X4. split; [reflexivity|].
      eapply reps_feq; [exact R5|]. intros i Hi. unfold upd. cbv beta. destruct (Z.eqb_spec i (Z.of_nat m)) as [->|Hne].
      + rewrite Z.ltb_irrefl. replace (Z.of_nat m <? Z.of_nat m + 1) with true by (symmetry; apply Z.ltb_lt; lia). reflexivity.
      + replace (i <? Z.of_nat m + 1) with (i <? Z.of_nat m); [reflexivity|]. apply Bool.eq_iff_eq_true. rewrite !Z.ltb_lt. lia. }
  destruct (K n ltac:(lia)) as (X' & E & R'). exists X'. split; [exact E|]. eapply reps_feq; [exact R'|]. intros i Hi. cbv beta. rewrite (proj2 (Z.ltb_lt _ _)) by lia.
  unfold enc. rewrite R3. reflexivity.
Qed.

Lemma words_inr b n X f : reps n X f -> words b n X <-> inr b n f.
Proof.
  intros [L H]. unfold words, inr. rewrite Forall_forall. split.
  - intros [_ F] i Hi. apply F. eapply zget_In. apply H, Hi.
  - intros F. split; [exact L|]. intros x Hx. apply P_Map.In_zget in Hx as (i & Hx). pose proof (zget_bounds _ _ _ Hx). specialize (H i ltac:(lia)). rewrite Hx in H. injection H as ->. apply F. lia.
Qed.

Lemma to_transpose_and_back b n X : 1 <= n -> 1 <= b <= 64 -> words b n X ->
  exists Y, axes_to_transpose X b n = Ok Y /\ words b n Y /\ transpose_to_axes Y b n = Ok X.
Proof.
  intros Hn Hb W. destruct W as [L F]. set (f := fun i => nth (Z.to_nat i) X 0). assert (reps n X f) as R by (rewrite <- L; apply reps_of).
  pose proof (proj1 (words_inr b n X f R) (conj L F)) as I. destruct (axes_to_transpose_reps n b X f Hn Hb R) as (Y & E & RY). exists Y. split; [exact E|].
  pose proof (redo_range n b f I) as I1. split; [apply (words_inr b n Y _ RY); apply enc_range; [lia|lia|exact I1]|].
  destruct (transpose_to_axes_reps n b Y _ Hn Hb RY) as (X' & E' & RX). rewrite E'. f_equal. apply (reps_fun n X' X f); [|exact R].
  eapply reps_feq; [exact RX|]. eapply feq_trans; [apply undo_cong, dec_enc; [lia|exact I1]|]. apply undo_redo.
Qed.
Lemma to_axes_and_back b n Y : 1 <= n -> 1 <= b <= 64 -> words b n Y ->
  exists X, transpose_to_axes Y b n = Ok X /\ words b n X /\ axes_to_transpose X b n = Ok Y.
Proof.
  intros Hn Hb W. destruct W as [L F]. set (f := fun i => nth (Z.to_nat i) Y 0). assert (reps n Y f) as R by (rewrite <- L; apply reps_of).
  pose proof (proj1 (words_inr b n Y f R) (conj L F)) as I. destruct (transpose_to_axes_reps n b Y f Hn Hb R) as (X & E & RX). exists X. split; [exact E|].
  pose proof (dec_range n b f ltac:(lia) Hn I) as I1. split; [apply (words_inr b n X _ RX); apply undo_range, I1|].
  destruct (axes_to_transpose_reps n b X _ Hn Hb RX) as (Y' & E' & RY). rewrite E'. f_equal. apply (reps_fun n Y' Y f); [|exact R].
  eapply reps_feq; [exact RY|]. eapply feq_trans; [apply enc_cong, redo_undo|]. apply enc_dec; [lia|lia|exact I].
Qed.
