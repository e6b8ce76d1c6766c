From Verif Require Import Prelude M_Int128 S_Int128.
Local Open Scope Z_scope.

Ltac pows := change (2 ^ 64) with 18446744073709551616 in *;
  change (2 ^ 63) with 9223372036854775808 in *;
  change (2 ^ 127) with 170141183460469231731687303715884105728 in *;
  change (2 ^ 126) with 85070591730234615865843651857942052864 in *.

Lemma s64_ok z : - 2 ^ 63 <= z < 2 ^ 63 -> s64 z = Ok z.
Proof. intros H. unfold s64, int64_ok. pows. destruct ((_ <=? z) && (z <? _)) eqn:E; [reflexivity|lia]. Qed.

Lemma u64_range z : 0 <= u64 z < 2 ^ 64.
Proof. unfold u64. apply Z.mod_pos_bound. reflexivity. Qed.

Lemma wf_of_int64 z : - 2 ^ 63 <= z < 2 ^ 63 -> wf128 (of_int64 z) /\ val128 (of_int64 z) = z.
Proof.
  intros H. unfold wf128, val128, of_int64, u64. cbn [high low]. pows.
  destruct (Z.ltb_spec z 0); lia.
Qed.

Lemma val128_inj x y : wf128 x -> wf128 y -> val128 x = val128 y -> x = y.
Proof.
  destruct x as [h l], y as [h' l']. unfold wf128, val128. cbn [high low]. pows. intros H1 H2 E.
  assert (h = h') by lia. subst. f_equal. lia.
Qed.

Lemma val128_range x : wf128 x -> - 2 ^ 127 <= val128 x < 2 ^ 127.
Proof. unfold wf128, val128. pows. lia. Qed.

Lemma add128_exact x y : wf128 x -> wf128 y ->
  - 2 ^ 127 + 2 ^ 64 <= val128 x + val128 y < 2 ^ 127 ->
  exists z, add128 x y = Ok z /\ wf128 z /\ val128 z = val128 x + val128 y.
Proof.
  destruct x as [h l], y as [h' l']. unfold wf128, val128, add128. cbn [high low]. intros H1 H2 H3.
  rewrite s64_ok by (pows; lia). cbn [bind]. unfold u64.
  destruct (Z.ltb_spec ((l + l') mod 2 ^ 64) l) as [C|C].
  - rewrite s64_ok by (pows; lia). cbn [bind]. eexists; split; [reflexivity|]. cbn [high low]. pows. lia.
  - rewrite s64_ok by (pows; lia). cbn [bind]. eexists; split; [reflexivity|]. cbn [high low]. pows. lia.
Qed.

Lemma sub128_exact x y : wf128 x -> wf128 y ->
  - 2 ^ 127 <= val128 x - val128 y < 2 ^ 127 - 2 ^ 64 ->
  exists z, sub128 x y = Ok z /\ wf128 z /\ val128 z = val128 x - val128 y.
Proof.
  destruct x as [h l], y as [h' l']. unfold wf128, val128, sub128. cbn [high low]. intros H1 H2 H3.
  rewrite s64_ok by (pows; lia). cbn [bind]. unfold u64. rewrite Z.gtb_ltb.
  destruct (Z.ltb_spec l ((l - l') mod 2 ^ 64)) as [C|C].
  - rewrite s64_ok by (pows; lia). cbn [bind]. eexists; split; [reflexivity|]. cbn [high low]. pows. lia.
  - rewrite s64_ok by (pows; lia). cbn [bind]. eexists; split; [reflexivity|]. cbn [high low]. pows. lia.
Qed.

Lemma neg128_exact x : wf128 x -> - 2 ^ 127 + 2 ^ 64 < val128 x ->
  exists z, neg128 x = Ok z /\ wf128 z /\ val128 z = - val128 x.
Proof.
  intros H H'. destruct (wf_of_int64 0 ltac:(pows; lia)) as [W V].
  destruct (sub128_exact (of_int64 0) x W H) as (z & E & Wz & Vz).
  - rewrite V. pose proof (val128_range x H). pows. lia.
  - exists z. split; [exact E|]. split; [exact Wz|]. rewrite Vz, V. lia.
Qed.

Lemma ltb128_spec x y : wf128 x -> wf128 y -> ltb128 x y = (val128 x <? val128 y).
Proof.
  destruct x as [h l], y as [h' l']. unfold wf128, val128, ltb128. cbn [high low]. pows. intros H1 H2.
  destruct (Z.eqb_spec h h'); cbn [negb]; lia.
Qed.
Lemma eqb128_spec x y : wf128 x -> wf128 y -> eqb128 x y = (val128 x =? val128 y).
Proof.
  destruct x as [h l], y as [h' l']. unfold wf128, val128, eqb128. cbn [high low]. pows. intros H1 H2.
  destruct (Z.eqb_spec h h'); cbn [andb]; lia.
Qed.

Lemma lor_add a b k : 0 <= k -> 0 <= a < 2 ^ k -> Z.lor a (b * 2 ^ k) = a + b * 2 ^ k.
Proof.
  intros Hk Ha. rewrite <- Z.shiftl_mul_pow2 by lia.
  assert (Z.land a (Z.shiftl b k) = 0) as Hz.
  { apply Z.bits_inj'. intros n Hn. rewrite Z.land_spec, Z.bits_0, Z.shiftl_spec by lia.
    destruct (Z.lt_ge_cases n k).
    - rewrite (Z.testbit_neg_r b) by lia. apply andb_false_r.
    - destruct (Z.eq_dec a 0) as [->|]; [rewrite Z.bits_0; reflexivity|].
      rewrite Z.bits_above_log2; [reflexivity|lia|].
      assert (Z.log2 a < k) by (apply Z.log2_lt_pow2; lia). lia. }
  symmetry. rewrite (Z.add_nocarry_lxor _ _ Hz), Z.lxor_lor by exact Hz. reflexivity.
Qed.

Lemma shr128_exact x e : wf128 x -> 1 <= e <= 63 ->
  exists z, shr128 x e = Ok z /\ wf128 z /\ val128 z = val128 x / 2 ^ e.
Proof.
  destruct x as [h l]. unfold wf128, val128, shr128. cbn [high low]. intros [Hh Hl] He.
  destruct (_ && _) eqn:C; [|lia]. eexists; split; [reflexivity|]. cbn [high low].
  rewrite !Z.shiftr_div_pow2, Z.shiftl_mul_pow2 by lia.
  assert (2 ^ 64 = 2 ^ e * 2 ^ (64 - e)) as E64 by (rewrite <- Z.pow_add_r by lia; f_equal; lia).
  set (p := 2 ^ e) in *. set (q := 2 ^ (64 - e)) in *.
  assert (0 < p) by (apply Z.pow_pos_nonneg; lia). assert (0 < q) by (apply Z.pow_pos_nonneg; lia).
  assert (u64 (u64 h * q) = (h mod p) * q) as ->.
  { unfold u64. rewrite Zmult_mod_idemp_l. rewrite E64. apply Zmult_mod_distr_r. }
  assert (0 <= l / p < q) as Hlp.
  { split; [apply Z.div_pos; lia|]. apply Z.div_lt_upper_bound; lia. }
  rewrite (lor_add (l / p) (h mod p) (64 - e) ltac:(lia) Hlp : Z.lor (l / p) (h mod p * q) = l / p + h mod p * q).
  pose proof (Z.mod_pos_bound h p ltac:(lia)) as Hm. pose proof (Z.div_mod h p ltac:(lia)) as Hdm.
  assert (2 <= p) as Hp2. { unfold p. change 2 with (2 ^ 1) at 1. apply Z.pow_le_mono_r; lia. }
  split; [split|].
  - split; [apply Z.div_le_lower_bound; nia|]. apply Z.div_lt_upper_bound; nia.
  - rewrite E64. set (m := h mod p) in *. set (d := l / p) in *. clearbody m d p q.
    assert (0 <= m * q <= (p - 1) * q) as Hmq by (split; [apply Z.mul_nonneg_nonneg|apply Z.mul_le_mono_nonneg_r]; lia).
    clear -Hmq Hlp. lia.
  - symmetry. replace (h * 2 ^ 64 + l) with (l + (h * q) * p) by (rewrite E64; ring).
    rewrite Z.div_add by lia. rewrite E64. set (m := h mod p) in *. set (d := l / p) in *. set (e' := h / p) in *.
    clearbody m d e'. rewrite Hdm. ring.
Qed.

(* to_double *)
Lemma halve_loop_spec f : forall tmp k, wf128 tmp -> 0 <= val128 tmp -> val128 tmp < 2 ^ (64 + Z.of_nat f) ->
  exists j t', halve_loop f tmp k = Ok (t', k + j) /\ 0 <= j /\ wf128 t' /\ high t' = 0 /\
    val128 t' = val128 tmp / 2 ^ j /\ (j = 0 \/ 2 ^ 64 <= val128 tmp / 2 ^ (j - 1)).
Proof.
  induction f as [|f IH]; intros tmp k W Hn Hb; cbn [halve_loop];
    destruct (Z.eqb_spec (high tmp) 0) as [E|E].
  - exists 0, tmp. replace (k + 0) with k by lia. change (2 ^ 0) with 1. rewrite Z.div_1_r.
    repeat split; try (exact E || apply W || lia).
  - exfalso. destruct tmp as [h l]. unfold wf128, val128 in *. cbn [high low] in *.
    change (64 + Z.of_nat 0) with 64 in Hb. pows. lia.
  - exists 0, tmp. replace (k + 0) with k by lia. change (2 ^ 0) with 1. rewrite Z.div_1_r.
    repeat split; try (exact E || apply W || lia).
  - destruct (shr128_exact tmp 1 W ltac:(lia)) as (t1 & E1 & W1 & V1). rewrite E1. cbn [bind].
    change (2 ^ 1) with 2 in V1.
    destruct (IH t1 (k + 1) W1) as (j & t' & E' & Hj & W' & H' & V' & M').
    + rewrite V1. apply Z.div_pos; lia.
    + rewrite V1. apply Z.div_lt_upper_bound; [lia|].
      replace (64 + Z.of_nat (S f)) with (1 + (64 + Z.of_nat f)) in Hb by lia.
      rewrite Z.pow_add_r in Hb by lia. exact Hb.
    + exists (j + 1), t'. replace (k + (j + 1)) with (k + 1 + j) by lia. split; [exact E'|].
      split; [lia|]. split; [exact W'|]. split; [exact H'|]. split.
      * rewrite V', V1, Z.div_div by (try apply Z.pow_pos_nonneg; lia).
        f_equal. rewrite Z.pow_add_r by lia. change (2 ^ 1) with 2. ring.
      * right. replace (j + 1 - 1) with j by lia. destruct M' as [-> | M'].
        -- change (2 ^ 0) with 1. rewrite Z.div_1_r. destruct tmp as [h l]. unfold wf128, val128 in *.
           cbn [high low] in *. pows. lia.
        -- destruct (Z.eq_dec j 0) as [->|].
           ++ change (2 ^ (0 - 1)) with 0 in M'. rewrite Zdiv_0_r in M'. pows. lia.
           ++ rewrite V1, Z.div_div in M' by (try apply Z.pow_pos_nonneg; lia).
              replace (2 ^ j) with (2 * 2 ^ (j - 1)); [exact M'|].
              replace j with (1 + (j - 1)) at 2 by lia. rewrite Z.pow_add_r by lia. reflexivity.
Qed.

Lemma to_double_spec round x u : wf128 x -> - 2 ^ 127 + 2 ^ 64 < val128 x ->
  exists k, 0 <= k /\
   to_double round x u =
     Ok (Real (if val128 x <? 0 then - round (Z.abs (val128 x) / 2 ^ k) else round (Z.abs (val128 x) / 2 ^ k)) (u + k)) /\
   Z.abs (val128 x) / 2 ^ k < 2 ^ 64 /\ (k = 0 \/ 2 ^ 64 <= Z.abs (val128 x) / 2 ^ (k - 1)).
Proof.
  intros W Hx. unfold to_double.
  destruct (wf_of_int64 0 ltac:(pows; lia)) as [W0 V0].
  rewrite ltb128_spec by assumption. rewrite V0.
  assert (exists t, (if val128 x <? 0 then neg128 x else Ok x) = Ok t /\ wf128 t /\ val128 t = Z.abs (val128 x)) as (t & Et & Wt & Vt).
  { destruct (Z.ltb_spec (val128 x) 0).
    - destruct (neg128_exact x W Hx) as (t & E & Wt & Vt). exists t. split; [exact E|]. split; [exact Wt|]. lia.
    - exists x. split; [reflexivity|]. split; [exact W|]. lia. }
  rewrite Et. cbn [bind].
  destruct (halve_loop_spec 128 t 0 Wt) as (j & t' & E & Hj & W' & H' & V' & M).
  - lia.
  - rewrite Vt. pose proof (val128_range x W).
    apply Z.lt_le_trans with (2 ^ 128); [change (2 ^ 128) with (2 * 2 ^ 127); lia|].
    apply Z.pow_le_mono_r; lia.
  - rewrite E. cbn [bind]. exists j. split; [exact Hj|].
    assert (low t' = Z.abs (val128 x) / 2 ^ j) as El.
    { rewrite <- Vt, <- V'. unfold val128. rewrite H'. lia. }
    split; [|split].
    + rewrite El. replace (0 + j) with j by lia. reflexivity.
    + rewrite <- El. apply W'.
    + rewrite <- Vt. exact M.
Qed.

(* sums over trees *)
Definition zsum (l : list Z) : Z := fold_right Z.add 0 l.
Lemma zsum_app l m : zsum (l ++ m) = zsum l + zsum m.
Proof. unfold zsum. induction l; cbn [app fold_right]; lia. Qed.
Lemma zsum_perm l m : Permutation l m -> zsum l = zsum m.
Proof. unfold zsum. induction 1; cbn [fold_right]; lia. Qed.

Definition small (x : int128) : Prop := wf128 x /\ - 2 ^ 63 <= val128 x <= 2 ^ 63.

Lemma reduce_sum (t : tree int128) (B : int128 -> Z) :
  (forall x, In x (fringe t) -> wf128 x /\ 0 <= B x /\ - B x <= val128 x <= B x) ->
  zsum (map B (fringe t)) < 2 ^ 126 ->
  exists z, reduce add128 t = Ok z /\ wf128 z /\ val128 z = zsum (map val128 (fringe t)) /\
    - zsum (map B (fringe t)) <= val128 z <= zsum (map B (fringe t)).
Proof.
  induction t as [x|l IHl r IHr]; cbn [fringe reduce]; intros HB Hs.
  - exists x. destruct (HB x (or_introl eq_refl)) as (W & ? & ?). cbn. repeat split; try apply W; lia.
  - rewrite map_app, zsum_app in Hs.
    assert (forall m, (forall x, In x m -> 0 <= B x) -> 0 <= zsum (map B m)) as Hnn.
    { induction m as [|y m IH]; cbn; intros H; [lia|]. pose proof (H y (or_introl eq_refl)).
      pose proof (IH (fun x Hx => H x (or_intror Hx))). unfold zsum in *. lia. }
    assert (0 <= zsum (map B (fringe l))) as Hl.
    { apply Hnn. intros x Hx. apply HB. apply in_app_iff; auto. }
    assert (0 <= zsum (map B (fringe r))) as Hr.
    { apply Hnn. intros x Hx. apply HB. apply in_app_iff; auto. }
    destruct IHl as (x & Ex & Wx & Vx & Bx); [intros y Hy; apply HB, in_app_iff; auto|lia|].
    destruct IHr as (y & Ey & Wy & Vy & By); [intros z Hz; apply HB, in_app_iff; auto|lia|].
    rewrite Ex, Ey. cbn [bind].
    destruct (add128_exact x y Wx Wy) as (z & Ez & Wz & Vz); [pows; lia|].
    exists z. split; [exact Ez|]. split; [exact Wz|]. rewrite !map_app, !zsum_app, <- Vx, <- Vy. lia.
Qed.

Lemma mapT_ok {A B} (f : A -> res B) (g : A -> B) t :
  (forall a, In a (fringe t) -> f a = Ok (g a)) ->
  exists t', mapT f t = Ok t' /\ fringe t' = map g (fringe t).
Proof.
  induction t as [a|l IHl r IHr]; cbn [fringe mapT]; intros H.
  - rewrite (H a (or_introl eq_refl)). cbn [bind]. eexists; split; reflexivity.
  - destruct IHl as (l' & El & Fl); [intros; apply H, in_app_iff; auto|].
    destruct IHr as (r' & Er & Fr); [intros; apply H, in_app_iff; auto|].
    rewrite El, Er. cbn [bind]. eexists; split; [reflexivity|]. cbn [fringe]. rewrite Fl, Fr, map_app. reflexivity.
Qed.

(* truncation *)
Lemma trunc_small v u : wf_real v -> (man v = 0 \/ frexp_expo v <= u + 52) -> Z.abs (trunc_div v u) < 2 ^ 52.
Proof.
  intros [Hm He] H. unfold trunc_div, frexp_expo in *.
  destruct (Z.eq_dec (man v) 0) as [E|E].
  - rewrite E. destruct (Z.leb_spec u (expo v)); [rewrite Z.mul_0_l; reflexivity|].
    rewrite Z.quot_0_l by (apply Z.pow_nonzero; lia). reflexivity.
  - destruct H as [H|H]; [contradiction|].
    assert (0 < Z.abs (man v)) as Hp by lia.
    pose proof (Z.log2_spec (Z.abs (man v)) Hp) as [_ Hl]. pose proof (Z.log2_nonneg (Z.abs (man v))) as Hl0.
    destruct (Z.leb_spec u (expo v)) as [Hu|Hu].
    + rewrite Z.abs_mul, (Z.abs_eq (2 ^ _)) by (apply Z.pow_nonneg; lia).
      apply Z.lt_le_trans with (2 ^ (Z.succ (Z.log2 (Z.abs (man v)))) * 2 ^ (expo v - u)).
      * apply Z.mul_lt_mono_pos_r; [apply Z.pow_pos_nonneg; lia|exact Hl].
      * rewrite <- Z.pow_add_r by lia. apply Z.pow_le_mono_r; lia.
    + rewrite <- Z.quot_abs by (apply Z.pow_nonzero; lia).
      rewrite (Z.abs_eq (2 ^ _)) by (apply Z.pow_nonneg; lia).
      rewrite Z.quot_div_nonneg by (try apply Z.pow_pos_nonneg; lia).
      apply Z.div_lt_upper_bound; [apply Z.pow_pos_nonneg; lia|].
      rewrite <- Z.pow_add_r by lia.
      apply Z.lt_le_trans with (2 ^ (Z.succ (Z.log2 (Z.abs (man v))))); [exact Hl|].
      apply Z.pow_le_mono_r; lia.
Qed.

Lemma fold_max_ge l a : a <= fold_left Z.max l a.
Proof. revert a; induction l as [|x l IH]; intros a; cbn; [lia|]. specialize (IH (Z.max a x)). lia. Qed.
Lemma fold_max_in l a x : In x l -> x <= fold_left Z.max l a.
Proof.
  revert a; induction l as [|y l IH]; intros a; cbn; [tauto|]. intros [->|H]; [|apply IH, H].
  pose proof (fold_max_ge l (Z.max a x)). lia.
Qed.
Lemma fold_max_acc l a b : fold_left Z.max l (Z.max a b) = Z.max a (fold_left Z.max l b).
Proof. revert a b; induction l as [|y l IH]; intros a b; cbn; [reflexivity|]. rewrite <- Z.max_assoc. apply IH. Qed.
Lemma fold_max_perm l m a : Permutation l m -> fold_left Z.max l a = fold_left Z.max m a.
Proof.
  intros P; revert a; induction P; intros a; cbn; auto.
  - f_equal. lia.
  - rewrite IHP1. apply IHP2.
Qed.
Lemma fold_max_concat (ls : list (list Z)) a :
  fold_left Z.max (map (fun l => fold_left Z.max l a) ls) a = fold_left Z.max (concat ls) a.
Proof.
  induction ls as [|l ls IH]; cbn; [reflexivity|]. rewrite fold_left_app.
  rewrite (Z.max_comm a), fold_max_acc, IH.
  rewrite <- (Z.max_l (fold_left Z.max l a) a) at 2 by apply fold_max_ge.
  rewrite fold_max_acc. reflexivity.
Qed.

Lemma int128_sum_exact a order u :
  Forall wf_real a -> valid_order (length a) order ->
  zlen a < 2 ^ 62 ->
  Forall (fun v => man v = 0 \/ frexp_expo v <= u + 52) a ->
  exists z, int128_sum a order u = Ok z /\ wf128 z /\ val128 z = zsum (map (fun v => trunc_div v u) a) /\
    Z.abs (val128 z) <= zlen a * 2 ^ 52.
Proof.
  intros Hwf (k & Hp) Hn Hu. unfold int128_sum.
  destruct (Z.eqb_spec (zlen a) 0) as [E|E].
  - destruct a; [|rewrite zlen_cons in E; pose proof (zlen_nonneg a); lia].
    exists (of_int64 0). destruct (wf_of_int64 0 ltac:(pows; lia)) as [W V].
    split; [reflexivity|]. split; [exact W|]. rewrite V. split; [reflexivity|]. cbn; lia.
  - set (g := fun i => match nth_error a i with Some v => of_int64 (trunc_div v u) | None => of_int64 0 end).
    assert (forall v, In v a -> Z.abs (trunc_div v u) < 2 ^ 52) as Hsm.
    { intros v Hv. rewrite Forall_forall in Hwf, Hu. apply trunc_small; auto. }
    assert (forall i, fixpt a u i = Ok (g i)) as Hg.
    { intros i. unfold fixpt, g. destruct (nth_error a i) as [v|] eqn:Ev; [|reflexivity].
      unfold from_double. rewrite s64_ok; [reflexivity|]. specialize (Hsm v (nth_error_In _ _ Ev)).
      change (2 ^ 52) with 4503599627370496 in *. pows. lia. }
    destruct (mapT_ok (fixpt a u) g order) as (t & Et & Ft); [intros; apply Hg|].
    rewrite Et. cbn [bind].
    assert (Permutation (fringe t) (map (fun v => of_int64 (trunc_div v u)) a ++ repeat (of_int64 0) k)) as Hpt.
    { rewrite Ft. rewrite (Permutation_map g Hp), map_app.
      replace (map g (seq 0 (length a))) with (map (fun v => of_int64 (trunc_div v u)) a).
      - replace (map g (repeat (length a) k)) with (repeat (of_int64 0) k); [reflexivity|].
        rewrite map_repeat. unfold g. rewrite (proj2 (nth_error_None a (length a))) by lia. reflexivity.
      - apply list_eq_nth. intros n. rewrite !nth_error_map.
        destruct (lt_dec n (length a)) as [Hlt|Hge].
        + rewrite (nth_error_nth' (seq 0 (length a)) 0%nat) by (rewrite seq_length; lia).
          rewrite seq_nth by lia. cbn [option_map Nat.add]. unfold g.
          destruct (nth_error a n) eqn:En; [reflexivity|]. apply nth_error_None in En. lia.
        + rewrite (proj2 (nth_error_None a n)) by lia.
          rewrite (proj2 (nth_error_None (seq 0 (length a)) n)) by (rewrite seq_length; lia). reflexivity. }
    set (B := fun x : int128 => if val128 x =? 0 then 0 else 2 ^ 52).
    assert (forall x, In x (fringe t) -> wf128 x /\ 0 <= B x /\ - B x <= val128 x <= B x) as HB.
    { intros x Hx. apply (Permutation_in _ Hpt) in Hx. apply in_app_iff in Hx as [Hx|Hx].
      - apply in_map_iff in Hx as (v & <- & Hv). specialize (Hsm v Hv).
        destruct (wf_of_int64 (trunc_div v u)) as [W V]; [change (2 ^ 52) with 4503599627370496 in *; pows; lia|].
        split; [exact W|]. unfold B. rewrite V. destruct (Z.eqb_spec (trunc_div v u) 0); lia.
      - apply repeat_spec in Hx as ->. destruct (wf_of_int64 0 ltac:(pows; lia)) as [W V].
        split; [exact W|]. unfold B. rewrite V. cbn. lia. }
    assert (zsum (map B (fringe t)) <= zlen a * 2 ^ 52) as HBs.
    { rewrite (zsum_perm _ _ (Permutation_map B Hpt)), map_app, zsum_app.
      assert (zsum (map B (repeat (of_int64 0) k)) = 0) as ->.
      { rewrite map_repeat. clear. induction k; cbn in *; [reflexivity|]. exact IHk. }
      rewrite map_map. clear. unfold zlen. induction a as [|v a IH]; cbn [map zsum fold_right length]; [lia|].
      fold (zsum (map (fun x => B (of_int64 (trunc_div x u))) a)).
      assert (B (of_int64 (trunc_div v u)) <= 2 ^ 52) by (unfold B; destruct (_ =? _); lia).
      rewrite Nat2Z.inj_succ. unfold Z.succ. rewrite Z.mul_add_distr_r. lia. }
    destruct (reduce_sum t B HB) as (z & Ez & Wz & Vz & Bz).
    { change (2 ^ 52) with 4503599627370496 in *. change (2 ^ 62) with 4611686018427387904 in *. pows. lia. }
    exists z. split; [exact Ez|]. split; [exact Wz|]. split; [|lia].
    rewrite Vz, (zsum_perm _ _ (Permutation_map val128 Hpt)), map_app, zsum_app, map_map.
    assert (zsum (map val128 (repeat (of_int64 0) k)) = 0) as ->.
    { rewrite map_repeat. clear. induction k; cbn in *; [reflexivity|]. exact IHk. }
    rewrite Z.add_0_r. f_equal. apply map_ext_in. intros v Hv.
    apply wf_of_int64. specialize (Hsm v Hv). change (2 ^ 52) with 4503599627370496 in *. pows. lia.
Qed.

Lemma max_exponent_ge a v : In v a -> exponent_of v <= max_exponent a.
Proof. intros H. apply fold_max_in, in_map, H. Qed.

Lemma exps_bound a M : Forall wf_real a -> fold_left Z.max (map exponent_of a) int_min <= M ->
  Forall (fun v => man v = 0 \/ frexp_expo v <= M - 52 + 52) a.
Proof.
  intros _ H. apply Forall_forall. intros v Hv.
  destruct (Z.eq_dec (man v) 0); [left; assumption|right].
  pose proof (max_exponent_ge a v Hv) as Hm. unfold max_exponent in Hm.
  assert (exponent_of v = frexp_expo v) as Ev by (unfold exponent_of; destruct (Z.eqb_spec (man v) 0); [contradiction|reflexivity]).
  lia.
Qed.

(* the fixed-point result as a function of the multiset *)
Definition the_result (round : Z -> Z) (all : list real) : res real :=
  let M := max_exponent all in
  if M =? int_min then Ok (Real 0 0) else
  let u := M - 52 in
  let s := zsum (map (fun v => trunc_div v u) all) in
  to_double round (Int128 (s / 2 ^ 64) (s mod 2 ^ 64)) u.

Lemma the_result_perm round a b : Permutation a b -> the_result round a = the_result round b.
Proof.
  intros P. unfold the_result, max_exponent.
  rewrite (fold_max_perm _ _ int_min (Permutation_map exponent_of P)).
  destruct (_ =? _); [reflexivity|].
  rewrite (zsum_perm _ _ (Permutation_map (fun v => trunc_div v (fold_left Z.max (map exponent_of b) int_min - 52)) P)).
  reflexivity.
Qed.

Lemma normal_max_unit a : normal_max a -> max_exponent a <> int_min -> -1074 <= max_exponent a - 52.
Proof.
  intros [H|(v & Hv & Hm & He)] Hne.
  - exfalso. apply Hne. unfold max_exponent. clear Hne.
    induction H as [|v a Hv Ha IH]; [reflexivity|]. cbn. unfold exponent_of at 2. rewrite Hv. cbn.
    exact IH.
  - pose proof (max_exponent_ge a v Hv) as H.
    assert (exponent_of v = frexp_expo v) as Ev by (unfold exponent_of; destruct (Z.eqb_spec (man v) 0); [contradiction|reflexivity]).
    lia.
Qed.

Lemma canon128 x : wf128 x -> x = Int128 (val128 x / 2 ^ 64) (val128 x mod 2 ^ 64).
Proof.
  destruct x as [h l]. unfold wf128, val128. cbn [high low]. pows. intros H. f_equal; lia.
Qed.

Lemma concat_fst {B} (parts : list (list real * B)) f :
  map f (concat (map fst parts)) = concat (map (fun p => map f (fst p)) parts) :> list Z.
Proof. rewrite concat_map, map_map. reflexivity. Qed.

Lemma repro_sum_comm_is round parts ranks :
  Forall (fun p => Forall wf_real (fst p) /\ valid_order (length (fst p)) (snd p)) parts ->
  valid_order (length parts) ranks -> Permutation (fringe ranks) (seq 0 (length parts)) ->
  zlen (concat (map fst parts)) < 2 ^ 62 -> normal_max (concat (map fst parts)) ->
  repro_sum_comm round parts ranks = the_result round (concat (map fst parts)).
Proof.
  intros Hparts _ Hr Hn Hnorm. unfold repro_sum_comm, the_result.
  assert (fold_left Z.max (map (fun p => max_exponent (fst p)) parts) int_min = max_exponent (concat (map fst parts))) as ->.
  { unfold max_exponent at 2. rewrite concat_fst. rewrite <- fold_max_concat, map_map. reflexivity. }
  set (M := max_exponent (concat (map fst parts))) in *.
  destruct (Z.eqb_spec M int_min) as [E|E]; [reflexivity|].
  pose proof (normal_max_unit _ Hnorm E) as Hu. unfold MANTISSA_BITS, min_unit_expo.
  destruct (Z.ltb_spec (M - 52) (-1074)); [unfold M in *; lia|].
  set (u := M - 52) in *.
  assert (forall p, In p parts -> exists z, int128_sum (fst p) (snd p) u = Ok z /\ wf128 z /\
     val128 z = zsum (map (fun v => trunc_div v u) (fst p)) /\ Z.abs (val128 z) <= zlen (fst p) * 2 ^ 52) as Hs.
  { intros p Hp. rewrite Forall_forall in Hparts. destruct (Hparts p Hp) as [Hw Ho].
    apply int128_sum_exact; try assumption.
    - eapply Z.le_lt_trans; [|exact Hn]. clear -Hp. induction parts as [|q parts IH]; [contradiction|].
      cbn [map concat]. rewrite zlen_app. pose proof (zlen_nonneg (fst q)). pose proof (zlen_nonneg (concat (map fst parts))).
      destruct Hp as [->|Hp]; [lia|]. specialize (IH Hp). lia.
    - apply exps_bound; [assumption|]. unfold M, max_exponent. rewrite concat_fst. rewrite <- fold_max_concat.
      apply fold_max_in. rewrite map_map. apply (in_map (fun x => fold_left Z.max (map exponent_of (fst x)) int_min) parts p Hp). }
  set (get := fun p => match int128_sum (fst p) (snd p) u with Ok z => z | _ => of_int64 0 end).
  assert (mapM (fun p => int128_sum (fst p) (snd p) u) parts = Ok (map get parts)) as ->.
  { apply mapM_map_ok. intros p Hp. unfold get. destruct (Hs p Hp) as (z & -> & _). reflexivity. }
  cbn [bind].
  set (g := fun r => nth r (map get parts) (of_int64 0)).
  destruct (mapT_ok (fun r => match nth_error (map get parts) r with Some s => Ok s | None => UB end) g ranks) as (t & Et & Ft).
  { intros r Hin. apply (Permutation_in _ Hr) in Hin. apply in_seq in Hin.
    unfold g. rewrite (nth_error_nth' _ (of_int64 0)) by (rewrite map_length; lia). reflexivity. }
  rewrite Et. cbn [bind].
  assert (Permutation (fringe t) (map get parts)) as Hpt.
  { rewrite Ft, (Permutation_map g Hr).
    replace (map g (seq 0 (length parts))) with (map get parts); [reflexivity|].
    apply nth_ext with (d := of_int64 0) (d' := g 0%nat).
    - rewrite !map_length, seq_length. reflexivity.
    - intros n Hlt. rewrite map_length in Hlt. rewrite (map_nth g).
      rewrite seq_nth by lia. reflexivity. }
  destruct (reduce_sum t (fun x => Z.abs (val128 x))) as (z & Ez & Wz & Vz & Bz).
  { intros x Hx. apply (Permutation_in _ Hpt) in Hx. apply in_map_iff in Hx as (p & <- & Hp).
    destruct (Hs p Hp) as (z & E' & W & _). unfold get. rewrite E'. split; [exact W|]. lia. }
  { rewrite (zsum_perm _ _ (Permutation_map _ Hpt)).
    apply Z.le_lt_trans with (zlen (concat (map fst parts)) * 2 ^ 52).
    - clearbody u. clear -Hs. induction parts as [|p parts IH]; cbn [map zsum fold_right concat]; [cbn; lia|].
      rewrite zlen_app. specialize (IH (fun q Hq => Hs q (or_intror Hq))).
      destruct (Hs p (or_introl eq_refl)) as (z & E & _ & _ & Hz).
      unfold zsum in IH. unfold get at 1. rewrite E. lia.
    - change (2 ^ 52) with 4503599627370496 in *. change (2 ^ 62) with 4611686018427387904 in *. pows. lia. }
  rewrite Ez. cbn [bind]. f_equal. rewrite (canon128 z Wz).
  assert (val128 z = zsum (map (fun v => trunc_div v u) (concat (map fst parts)))) as ->; [|reflexivity].
  rewrite Vz, (zsum_perm _ _ (Permutation_map _ Hpt)). rewrite concat_fst.
  clearbody u. clear -Hs. induction parts as [|p parts IH]; [reflexivity|].
  cbn [map concat]. rewrite zsum_app. cbn [zsum fold_right]. fold (zsum (map val128 (map get parts))).
  rewrite (IH (fun q Hq => Hs q (or_intror Hq))). f_equal.
  destruct (Hs p (or_introl eq_refl)) as (z & E & _ & V & _). unfold get. rewrite E. exact V.
Qed.

Lemma repro_sum_is round a order :
  Forall wf_real a -> valid_order (length a) order -> zlen a < 2 ^ 62 -> normal_max a ->
  repro_sum round a order = the_result round a.
Proof.
  intros Hw Ho Hn Hnorm. unfold repro_sum, the_result.
  destruct (Z.eqb_spec (zlen a) 0) as [E|E].
  - destruct a; [reflexivity|rewrite zlen_cons in E; pose proof (zlen_nonneg a); lia].
  - set (M := max_exponent a) in *. destruct (Z.eqb_spec M int_min) as [E'|E']; [reflexivity|].
    pose proof (normal_max_unit _ Hnorm E') as Hu. unfold MANTISSA_BITS, min_unit_expo.
    destruct (Z.ltb_spec (M - 52) (-1074)); [unfold M in *; lia|].
    destruct (int128_sum_exact a order (M - 52) Hw Ho Hn) as (z & Ez & Wz & Vz & _).
    + apply exps_bound; [assumption|]. unfold M, max_exponent. lia.
    + rewrite Ez. cbn [bind]. rewrite (canon128 z Wz), Vz. reflexivity.
Qed.

Lemma the_result_ok round a : Forall wf_real a -> zlen a < 2 ^ 62 ->
  exists r, the_result round a = Ok r.
Proof.
  intros Hw Hn. unfold the_result. set (M := max_exponent a). destruct (Z.eqb_spec M int_min); [eauto|].
  set (s := zsum (map (fun v => trunc_div v (M - 52)) a)).
  assert (Z.abs s <= zlen a * 2 ^ 52) as Hs.
  { assert (Forall (fun v => Z.abs (trunc_div v (M - 52)) < 2 ^ 52) a) as H.
    { apply Forall_forall. intros v Hv. rewrite Forall_forall in Hw. apply trunc_small; [apply Hw, Hv|].
      assert (Forall wf_real a) as Hw' by (apply Forall_forall; exact Hw).
      pose proof (exps_bound a M Hw' ltac:(unfold M, max_exponent; lia)) as Hb.
      rewrite Forall_forall in Hb. exact (Hb v Hv). }
    unfold s. clearbody M. clear -H. 
    induction H as [|v l Hv Hl IH]; cbn [map zsum fold_right]; [cbn; lia|]. rewrite zlen_cons.
    unfold zsum in *. change (2 ^ 52) with 4503599627370496 in *. lia. }
  assert (Z.abs s < 2 ^ 114) as Hs'.
  { change (2 ^ 52) with 4503599627370496 in *. change (2 ^ 62) with 4611686018427387904 in *.
    change (2 ^ 114) with 20769187434139310514121985316880384. lia. }
  assert (wf128 (Int128 (s / 2 ^ 64) (s mod 2 ^ 64))) as W.
  { unfold wf128. cbn [high low]. change (2 ^ 114) with 20769187434139310514121985316880384 in *. pows. lia. }
  assert (val128 (Int128 (s / 2 ^ 64) (s mod 2 ^ 64)) = s) as V.
  { unfold val128. cbn [high low]. pows. lia. }
  destruct (to_double_spec round _ (M - 52) W) as (k & _ & E & _).
  - rewrite V. change (2 ^ 114) with 20769187434139310514121985316880384 in *. pows. lia.
  - rewrite E. eauto.
Qed.

Lemma repro_sum_independent round parts1 ranks1 parts2 ranks2 a order :
  let ok := fun parts ranks =>
    Forall (fun p => Forall wf_real (fst p) /\ valid_order (length (fst p)) (snd p)) parts /\
    Permutation (fringe ranks) (seq 0 (length parts)) in
  ok parts1 ranks1 -> ok parts2 ranks2 ->
  Permutation (concat (map fst parts1)) a -> Permutation (concat (map fst parts2)) a ->
  valid_order (length a) order -> zlen a < 2 ^ 62 -> normal_max a ->
  exists r, repro_sum_comm round parts1 ranks1 = Ok r /\ repro_sum_comm round parts2 ranks2 = Ok r /\
    repro_sum round a order = Ok r.
Proof.
  intros ok [H1 R1] [H2 R2] P1 P2 Ho Hn Hnorm.
  assert (forall parts, Forall (fun p => Forall wf_real (fst p) /\ valid_order (length (fst p)) (snd p)) parts ->
    Forall wf_real (concat (map fst parts))) as Hc.
  { intros parts H. apply Forall_concat. rewrite Forall_map. eapply Forall_impl; [|exact H]. cbn. tauto. }
  assert (forall b, Permutation b a -> normal_max b) as Hnm.
  { intros b Pb. destruct Hnorm as [H|(v & Hv & H)].
    - left. eapply Permutation_Forall; [symmetry; exact Pb|exact H].
    - right. exists v. split; [|exact H]. apply (Permutation_in _ (Permutation_sym Pb) Hv). }
  assert (forall b, Permutation b a -> zlen b < 2 ^ 62) as Hln.
  { intros b Pb. unfold zlen in *. rewrite (Permutation_length Pb). exact Hn. }
  assert (Forall wf_real a) as Hwa.
  { eapply Permutation_Forall; [exact P1|]. apply Hc, H1. }
  assert (forall n t, Permutation (fringe t) (seq 0 n) -> valid_order n t) as Hv.
  { intros n t H. exists 0%nat. cbn. rewrite app_nil_r. exact H. }
  rewrite (repro_sum_comm_is round parts1 ranks1) by auto.
  rewrite (repro_sum_comm_is round parts2 ranks2) by auto.
  rewrite (repro_sum_is round a order) by auto.
  rewrite (the_result_perm _ _ _ P1), (the_result_perm _ _ _ P2).
  destruct (the_result_ok round a Hwa Hn) as (r & E). exists r. auto.
Qed.

Lemma repro_sum_grid round a order : 
  Forall wf_real a -> valid_order (length a) order -> zlen a < 2 ^ 62 ->
  (exists v, In v a /\ man v <> 0) -> normal_max a ->
  let u := max_exponent a - 52 in
  Forall (fun v => u <= expo v) a ->
  let s := fold_right Z.add 0 (map (fun v => man v * 2 ^ (expo v - u)) a) in
  Z.abs s < 2 ^ 64 -> round (Z.abs s) = Z.abs s ->
  repro_sum round a order = Ok (Real s u).
Proof.
  intros Hw Ho Hn (v0 & Hv0 & Hm0) Hnorm u Hu s Hs Hround.
  rewrite repro_sum_is by assumption. unfold the_result.
  destruct (Z.eqb_spec (max_exponent a) int_min) as [E|E].
  { exfalso. pose proof (max_exponent_ge a v0 Hv0) as H.
    assert (exponent_of v0 = frexp_expo v0) as Ev by (unfold exponent_of; destruct (Z.eqb_spec (man v0) 0); [contradiction|reflexivity]).
    rewrite Ev, E in H. unfold frexp_expo, int_min in H. pose proof (Z.log2_nonneg (Z.abs (man v0))).
    rewrite Forall_forall in Hw. destruct (Hw v0 Hv0) as [_ He]. lia. }
  fold u. assert (zsum (map (fun v => trunc_div v u) a) = s) as ->.
  { unfold s, zsum. f_equal. apply map_ext_in. intros v Hv. rewrite Forall_forall in Hu. specialize (Hu v Hv).
    unfold trunc_div. destruct (Z.leb_spec u (expo v)); [reflexivity|lia]. }
  assert (wf128 (Int128 (s / 2 ^ 64) (s mod 2 ^ 64))) as W.
  { unfold wf128. cbn [high low]. pows. lia. }
  assert (val128 (Int128 (s / 2 ^ 64) (s mod 2 ^ 64)) = s) as V.
  { unfold val128. cbn [high low]. pows. lia. }
  destruct (to_double_spec round _ u W) as (k & Hk & E' & _ & Hmin).
  - rewrite V. pows. lia.
  - rewrite V in *. rewrite E'.
    assert (k = 0) as ->.
    { destruct Hmin as [->|Hmin]; [reflexivity|exfalso].
      destruct (Z.eq_dec k 0) as [->|Hk0].
      - change (2 ^ (0 - 1)) with 0 in Hmin. rewrite Zdiv_0_r in Hmin. pows. lia.
      - assert (Z.abs s / 2 ^ (k - 1) <= Z.abs s); [|lia].
        apply Z.div_le_upper_bound; [apply Z.pow_pos_nonneg; lia|].
        assert (1 <= 2 ^ (k - 1)); [|nia]. change 1 with (2 ^ 0). apply Z.pow_le_mono_r; lia. }
    change (2 ^ 0) with 1. rewrite Z.div_1_r, Hround. rewrite Z.add_0_r.
    do 2 f_equal. destruct (Z.ltb_spec s 0); lia.
Qed.

Lemma add128_corner : exists x y, wf128 x /\ wf128 y /\
  - 2 ^ 127 <= val128 x + val128 y < 2 ^ 127 /\ add128 x y = UB.
Proof.
  exists (Int128 (- 2 ^ 63) (2 ^ 64 - 1)), (Int128 (-1) (2 ^ 64 - 1)).
  unfold wf128, val128. cbn [high low]. pows. repeat split; lia.
Qed.

Lemma repro_sum_subnormal : exists a order, Forall wf_real a /\ valid_order (length a) order /\
  repro_sum (fun z => z) a order = UB.
Proof.
  exists [Real 1 (-1074)], (leaf 0%nat). split; [|split].
  - repeat constructor; cbn; lia.
  - exists 0%nat. reflexivity.
  - reflexivity.
Qed.
