From Verif Require Import Prelude M_Array M_Scan S_Scan P_Scan M_Sort S_Sort M_Map S_Map S_Fan P_Array P_Map P_Map2 P_Sort P_SortSmall.
Local Open Scope Z_scope.

(** * Fans *)
Lemma fan_mono f i j x y : is_fan f -> zget f i = Ok x -> zget f j = Ok y -> i <= j -> x <= y.
Proof.
  intros [_ H] Hi Hj Hle. pose proof (zget_bounds _ _ _ Hi) as B. pose proof (zget_bounds _ _ _ Hj) as B'.
  assert (forall k z, zget f (i + Z.of_nat k) = Ok z -> x <= z) as K.
  { induction k as [|k IH]; intros z Hz; [rewrite Z.add_0_r in Hz; assert (x = z) by congruence; lia|].
    pose proof (zget_bounds _ _ _ Hz). destruct (zget_in_range f (i + Z.of_nat k)) as (w & Hw); [lia|].
    specialize (IH w Hw). specialize (H (i + Z.of_nat k) w z Hw).
    replace (i + Z.of_nat k + 1) with (i + Z.of_nat (S k)) in H by lia. specialize (H Hz). lia. }
  apply (K (Z.to_nat (j - i))). replace (i + Z.of_nat (Z.to_nat (j - i))) with j by lia. exact Hj.
Qed.
Lemma fan_nonneg f i x : is_fan f -> zget f i = Ok x -> 0 <= x.
Proof. intros H Hi. pose proof (zget_bounds _ _ _ Hi). eapply fan_mono; [exact H|apply H|exact Hi|lia]. Qed.
Lemma fan_last f : is_fan f -> exists n, last_of f = Ok n /\ 0 <= n /\ 1 <= zlen f.
Proof.
  intros H. pose proof (zget_bounds _ _ _ (proj1 H)). unfold last_of.
  destruct (zget_in_range f (zlen f - 1)) as (n & Hn); [lia|]. exists n. split; [exact Hn|]. split; [eapply fan_nonneg; eauto|lia].
Qed.
Lemma in_group_unique f a a' b : is_fan f -> in_group f a b -> in_group f a' b -> a = a'.
Proof.
  intros H (lo & hi & Hlo & Hhi & Hb) (lo' & hi' & Hlo' & Hhi' & Hb').
  destruct (Z.lt_trichotomy a a') as [Hl|[Hl|Hl]]; [|exact Hl|].
  - pose proof (fan_mono f (a + 1) a' _ _ H Hhi Hlo' ltac:(lia)). lia.
  - pose proof (fan_mono f (a' + 1) a _ _ H Hhi' Hlo ltac:(lia)). lia.
Qed.
Lemma in_group_exists f n b : is_fan f -> last_of f = Ok n -> 0 <= b < n -> exists a, in_group f a b.
Proof.
  intros H Hn Hb.
  assert (forall k x, zget f (Z.of_nat k) = Ok x -> b < x -> exists a, in_group f a b) as K.
  { induction k as [|k IH]; intros x Hx Hlt; [change (Z.of_nat 0) with 0 in Hx; pose proof (proj1 H) as H0; assert (x = 0) by congruence; lia|].
    pose proof (zget_bounds _ _ _ Hx). destruct (zget_in_range f (Z.of_nat k)) as (w & Hw); [lia|].
    destruct (Z.lt_ge_cases b w); [eapply IH; eauto|]. exists (Z.of_nat k), w, x. split; [exact Hw|].
    split; [replace (Z.of_nat k + 1) with (Z.of_nat (S k)) by lia; exact Hx|lia]. }
  unfold last_of in Hn. pose proof (zget_bounds _ _ _ Hn).
  apply (K (Z.to_nat (zlen f - 1)) n); [rewrite Z2Nat.id by lia; exact Hn|lia].
Qed.
Lemma in_group_range f n a b : is_fan f -> last_of f = Ok n -> in_group f a b -> 0 <= b < n /\ 0 <= a < zlen f - 1.
Proof.
  intros H Hn (lo & hi & Hlo & Hhi & Hb). pose proof (zget_bounds _ _ _ Hlo). pose proof (zget_bounds _ _ _ Hhi).
  pose proof (fan_nonneg f a lo H Hlo). unfold last_of in Hn. pose proof (fan_mono f (a + 1) (zlen f - 1) hi n H Hhi Hn ltac:(lia)). lia.
Qed.

(** ** degrees *)
Lemma get_degrees_spec f : 1 <= zlen f ->
  exists d, get_degrees f = Ok d /\ zlen d = zlen f - 1 /\
  forall a lo hi, zget f a = Ok lo -> zget f (a + 1) = Ok hi -> zget d a = Ok (hi - lo).
Proof.
  intros Hl. unfold get_degrees. destruct (Z.ltb_spec (zlen f - 1) 0); [lia|].
  set (F := fun i => hi <- zget f (i + 1) ;; lo <- zget f i ;; Ok (hi - lo)).
  assert (forall i, 0 <= i < zlen f - 1 -> exists x, F i = Ok x) as HF.
  { intros i Hi. unfold F. destruct (zget_in_range f (i + 1)) as (hi & Hhi); [lia|]. destruct (zget_in_range f i) as (lo & Hlo); [lia|].
    rewrite Hhi, Hlo. cbn. eauto. }
  assert (exists d, tabulate (zlen f - 1) F = Ok d) as (d & E).
  { eexists. apply tabulate_map with (g := fun i => match F i with Ok x => x | _ => 0 end).
    intros i Hi. destruct (HF i Hi) as (x & ->). reflexivity. }
  exists d. split; [exact E|]. apply tabulate_ok in E as [L G]; [|lia]. split; [exact L|].
  intros a lo hi Hlo Hhi. pose proof (zget_bounds _ _ _ Hlo). pose proof (zget_bounds _ _ _ Hhi).
  destruct (G a ltac:(lia)) as (x & Hx & Hd). unfold F in Hx. rewrite Hhi, Hlo in Hx. cbn in Hx. congruence.
Qed.

Lemma offset_scan_step d a x : zget d a = Ok x -> exists s, zget (offset_scan d) a = Ok s /\ zget (offset_scan d) (a + 1) = Ok (s + x).
Proof.
  intros H. pose proof (zget_bounds _ _ _ H). exists (zsum (firstn (Z.to_nat a) d)).
  rewrite !offset_scan_get by lia. split; [reflexivity|]. rewrite (firstn_snoc _ _ _ H), zsum_app. cbn. f_equal. lia.
Qed.

Lemma degrees_of_offsets d : get_degrees (offset_scan d) = Ok d.
Proof.
  destruct (get_degrees_spec (offset_scan d)) as (r & E & L & G); [rewrite offset_scan_length; pose proof (zlen_nonneg d); lia|].
  rewrite E. f_equal. rewrite offset_scan_length in L. apply list_eq_zget; [lia|]. intros i Hi.
  destruct (zget_in_range d i ltac:(lia)) as (x & Hx). destruct (offset_scan_step d i x Hx) as (s & H1 & H2).
  rewrite (G i _ _ H1 H2), Hx. f_equal. lia.
Qed.

Lemma offsets_of_degrees f : zget f 0 = Ok 0 -> exists d, get_degrees f = Ok d /\ offset_scan d = f.
Proof.
  intros H0. pose proof (zget_bounds _ _ _ H0) as B. destruct (get_degrees_spec f) as (d & E & L & G); [lia|].
  exists d. split; [exact E|]. apply list_eq_zget; [rewrite offset_scan_length; lia|].
  rewrite offset_scan_length, L. intros i Hi.
  assert (forall k, Z.of_nat k < zlen f -> zget (offset_scan d) (Z.of_nat k) = zget f (Z.of_nat k)) as K.
  { induction k as [|k IH]; intros Hk.
    - change (Z.of_nat 0) with 0. rewrite H0. reflexivity.
    - specialize (IH ltac:(lia)). destruct (zget_in_range f (Z.of_nat k)) as (lo & Hlo); [lia|].
      destruct (zget_in_range f (Z.of_nat k + 1)) as (hi & Hhi); [lia|].
      pose proof (G _ _ _ Hlo Hhi) as Hd. destruct (offset_scan_step d _ _ Hd) as (s & H1 & H2).
      replace (Z.of_nat (S k)) with (Z.of_nat k + 1) by lia. rewrite H2, Hhi. rewrite H1 in IH. rewrite Hlo in IH.
      injection IH as ->. f_equal. lia. }
  specialize (K (Z.to_nat i)). rewrite Z2Nat.id in K by lia. apply K. lia.
Qed.

Lemma offset_scan_fan d : (forall x, In x d -> 0 <= x) -> is_fan (offset_scan d).
Proof.
  intros H. split; [reflexivity|]. intros i lo hi Hlo Hhi.
  pose proof (zget_bounds _ _ _ Hlo). pose proof (zget_bounds _ _ _ Hhi) as B. rewrite offset_scan_length in B.
  destruct (zget_in_range d i) as (x & Hx); [lia|]. destruct (offset_scan_step d i x Hx) as (s & H1 & H2).
  pose proof (H x (zget_In _ _ _ Hx)). rewrite H1 in Hlo. rewrite H2 in Hhi. injection Hlo as ->. injection Hhi as <-. lia.
Qed.

Lemma offset_scan_last d : last_of (offset_scan d) = Ok (zsum d).
Proof.
  unfold last_of. rewrite offset_scan_length. replace (zlen d + 1 - 1) with (zlen d) by lia.
  rewrite offset_scan_get by (pose proof (zlen_nonneg d); lia). unfold zlen. rewrite Nat2Z.id, firstn_all. reflexivity.
Qed.

(** ** the running maximum after sparse writes *)
Lemma running_max (d : list Z) k v : zget (fill_right d) k = Ok v -> 0 <= k < zlen d ->
  forall t m, 0 <= t <= k -> zget d t = Ok m -> (forall j x, 0 <= j <= k -> zget d j = Ok x -> x <= m) -> v = m.
Proof.
  intros Hv Hk t m Ht Hm Hmax. destruct (fill_right_get d k Hk) as (v' & E & H1 & (j & Hj & Hd)).
  assert (v' = v) as -> by congruence. pose proof (H1 t m Ht Hm). pose proof (Hmax j v Hj Hd). lia.
Qed.
Lemma fill_right_zlen d : zlen (fill_right d) = zlen d.
Proof. unfold fill_right, zlen. rewrite scan_length. reflexivity. Qed.

(** ** invert_fan *)
Lemma invert_fan_spec f : is_fan f ->
  exists r n, last_of f = Ok n /\ invert_fan f = Ok r /\ zlen r = n /\
  forall a b, zget r b = Ok a <-> in_group f a b.
Proof.
  intros Hf. destruct (fan_last f Hf) as (n & En & Hn & Hl). unfold invert_fan. rewrite En. cbn [bind].
  rewrite filled_ok by lia. cbn [bind]. set (dst := repeat _ _).
  assert (zlen dst = n) as Hd by (unfold dst; rewrite zlen_repeat; lia).
  destruct (forM_invariant (fun i d => zlen d = n /\
     (forall a lo hi, a < i -> zget f a = Ok lo -> zget f (a + 1) = Ok hi -> lo < hi -> zget d lo = Ok a) /\
     (forall b, 0 <= b < n -> zget d b = Ok (-1) \/ exists a hi, a < i /\ zget f a = Ok b /\ zget f (a + 1) = Ok hi /\ b < hi /\ zget d b = Ok a))
     (zlen f - 1) dst (fun d a => lo <- zget f a ;; hi <- zget f (a + 1) ;; if lo =? hi then Ok d else zset d lo a))
     as (d & E & L & G & F).
  - lia.
  - split; [exact Hd|]. split; [intros a lo hi Ha Hlo; apply zget_bounds in Hlo; lia|].
    intros b Hb. left. unfold dst. apply zget_repeat. lia.
  - intros i d Hi (L & G & F). destruct (zget_in_range f i) as (lo & Hlo); [lia|]. destruct (zget_in_range f (i + 1)) as (hi & Hhi); [lia|].
    rewrite Hlo, Hhi. cbn [bind]. pose proof (proj2 Hf i lo hi Hlo Hhi) as Hle.
    destruct (Z.eqb_spec lo hi) as [<-|Hne].
    + exists d. split; [reflexivity|]. split; [exact L|]. split.
      * intros a lo' hi' Ha Hlo' Hhi' Hlt. apply (G a lo' hi'); auto. assert (a <> i); [|lia]. intros ->.
        rewrite Hlo in Hlo'. rewrite Hhi in Hhi'. injection Hlo' as <-. injection Hhi' as <-. lia.
      * intros b Hb. destruct (F b Hb) as [H|(a & hi' & H)]; [left; exact H|right; exists a, hi'; intuition lia].
    + assert (in_group f i lo) as Hg by (exists lo, hi; repeat split; auto; lia).
      destruct (in_group_range f n i lo Hf En Hg) as [Blo _].
      destruct (zset_in_range d lo i) as (d' & Ed'); [lia|]. exists d'. split; [exact Ed'|].
      split; [rewrite (zset_zlen _ _ _ _ Ed'); exact L|]. split.
      * intros a lo' hi' Ha Hlo' Hhi' Hlt. destruct (Z.eq_dec a i) as [->|Hai].
        -- assert (lo' = lo) by congruence. subst lo'. eapply zset_get_eq; eauto.
        -- assert (lo' <> lo) as Hll.
           { intros ->. apply Hai. eapply in_group_unique; [exact Hf| |exact Hg]. exists lo, hi'. repeat split; auto; lia. }
           rewrite (zset_get_ne _ _ _ _ _ Ed') by lia. apply (G a lo' hi'); auto. lia.
      * intros b Hb. destruct (Z.eq_dec b lo) as [->|Hbl].
        -- right. exists i, hi. repeat split; auto; try lia. eapply zset_get_eq; eauto.
        -- rewrite (zset_get_ne _ _ _ _ _ Ed') by lia. destruct (F b Hb) as [H|(a & hi' & H)]; [left; exact H|right; exists a, hi'; intuition lia].
  - rewrite E. cbn [bind]. exists (fill_right d), n. split; [reflexivity|]. split; [reflexivity|]. split; [rewrite fill_right_zlen; exact L|].
    assert (forall a b, in_group f a b -> zget (fill_right d) b = Ok a) as K.
    { intros a b Hg. destruct (in_group_range f n a b Hf En Hg) as [Bb Ba].
      destruct (zget_in_range (fill_right d) b) as (v & Hv); [rewrite fill_right_zlen; lia|]. rewrite Hv. f_equal.
      destruct Hg as (lo & hi & Hlo & Hhi & Hb).
      apply (running_max d b v Hv ltac:(lia) lo).
      - pose proof (fan_nonneg f a lo Hf Hlo). lia.
      - apply (G a lo hi); auto; lia.
      - intros j x Hj Hx. destruct (F j ltac:(lia)) as [H|(a' & hi' & Ha' & Hlo' & Hhi' & Hlt & Hd')].
        + assert (x = -1) by congruence. lia.
        + assert (x = a') as -> by congruence. destruct (Z.le_gt_cases a' a); [assumption|].
          pose proof (fan_mono f (a + 1) a' hi j Hf Hhi Hlo' ltac:(lia)). lia. }
    intros a b. split; [|apply K]. intros Ha. pose proof (zget_bounds _ _ _ Ha) as Bb. rewrite fill_right_zlen, L in Bb.
    destruct (in_group_exists f n b Hf En Bb) as (a' & Ha'). pose proof (K a' b Ha'). assert (a' = a) as <- by congruence. exact Ha'.
Qed.

(** ** invert_funnel *)
Lemma sorted_below l : Sorted Z.le l -> forall i x v, zget l i = Ok x -> (x < v <-> i < count (fun y => y <? v) l).
Proof.
  intros HS0. apply Sorted_StronglySorted in HS0; [|intros x y z; lia].
  induction HS0 as [|h l HS IH F]; intros i x v Hx; [apply zget_bounds in Hx; cbn in Hx; lia|].
  rewrite count_cons. destruct (Z.eq_dec i 0) as [->|Hi0].
  - cbn in Hx. injection Hx as <-. pose proof (count_nonneg (fun y => y <? v) l). destruct (Z.ltb_spec h v) as [|Hge]; [lia|].
    replace (count (fun y => y <? v) l) with 0; [lia|]. symmetry. unfold count.
    replace (filter (fun y => y <? v) l) with (@nil Z); [reflexivity|]. clear -F Hge. induction F as [|y l Hy _ IH]; [reflexivity|].
    cbn. destruct (Z.ltb_spec y v); [lia|exact IH].
  - pose proof (zget_bounds _ _ _ Hx). assert (zget l (i - 1) = Ok x) as Hx'.
    { apply zget_ok in Hx as [_ Hx]. replace (Z.to_nat i) with (S (Z.to_nat (i - 1))) in Hx by lia. apply zget_ok. split; [lia|exact Hx]. }
    specialize (IH (i - 1) x v Hx'). pose proof (zget_In _ _ _ Hx') as Hin. eapply Forall_forall in F; [|exact Hin].
    destruct (Z.ltb_spec h v); [lia|]. pose proof (count_nonneg (fun y => y <? v) l).
    assert (~ x < v) by lia. assert (~ i - 1 < count (fun y => y <? v) l) by tauto. lia.
Qed.

Lemma invert_funnel_counts ab2a na : 0 <= na -> Sorted Z.le ab2a -> (forall x, In x ab2a -> 0 <= x < na) ->
  exists r, invert_funnel ab2a na = Ok r /\ zlen r = na + 1 /\
  forall k, 0 <= k <= na -> zget r k = Ok (count (fun y => y <? k) ab2a).
Proof.
  intros Hna HS Hr. unfold invert_funnel. rewrite filled_ok by lia. cbn [bind]. set (d0 := repeat _ _).
  assert (zlen d0 = na + 1) as L0 by (unfold d0; rewrite zlen_repeat; lia).
  destruct (zset_in_range d0 0 0) as (d1 & E1); [lia|]. rewrite E1. cbn [bind].
  pose proof (zset_zlen _ _ _ _ E1) as L1. rewrite L0 in L1. pose proof (zlen_nonneg ab2a) as Hn.
  set (nab := zlen ab2a) in *. set (c := fun k => count (fun y => y <? k) ab2a).
  assert (forall j k, j <= k -> c j <= c k) as cmono by (intros j k Hjk; apply count_le; intros; lia).
  assert (c 0 = 0) as c0.
  { unfold c, count. replace (filter (fun y => y <? 0) ab2a) with (@nil Z); [reflexivity|].
    clear -Hr. induction ab2a as [|x l IH]; [reflexivity|]. cbn. pose proof (Hr x ltac:(left; reflexivity)).
    destruct (Z.ltb_spec x 0); [lia|]. apply IH. intros; apply Hr; right; assumption. }
  pose proof (sorted_below ab2a HS) as SB.
  (* the last index holding a value gives the count *)
  assert (forall i x, zget ab2a i = Ok x -> (forall y, zget ab2a (i + 1) = Ok y -> x <> y) -> c (x + 1) = i + 1) as clast.
  { intros i x Hx Hnext. pose proof (zget_bounds _ _ _ Hx) as B. pose proof (proj1 (SB i x (x + 1) Hx) ltac:(lia)) as H1.
    fold (c (x + 1)) in H1. pose proof (count_total (fun y => y <? x + 1) ab2a) as H2. fold (c (x + 1)) in H2.
    destruct (Z.eq_dec (c (x + 1)) (i + 1)) as [E|E]; [exact E|]. exfalso.
    destruct (zget_in_range ab2a (i + 1)) as (y & Hy); [lia|].
    pose proof (proj2 (SB (i + 1) y (x + 1) Hy)) as H3. fold (c (x + 1)) in H3. specialize (H3 ltac:(lia)).
    pose proof (proj1 (SB i x (y + 1) Hx)) as H5.
    assert (x <= y); [|specialize (Hnext y Hy); lia].
    destruct (Z.le_gt_cases x y) as [H6|H6]; [exact H6|].
    assert (y < x) by lia. pose proof (proj1 (SB (i + 1) y x Hy) ltac:(lia)) as H7. pose proof (proj2 (SB i x x Hx) ltac:(lia)). lia. }
  assert (forall k, 0 <= k <= na -> zget d1 k = Ok (if k =? 0 then 0 else -1)) as G1.
  { intros k Hk. destruct (Z.eqb_spec k 0) as [->|Hk0]; [eapply zset_get_eq; eauto|].
    rewrite (zset_get_ne _ _ _ _ _ E1) by lia. unfold d0. apply zget_repeat. lia. }
  set (Inv := fun (m : Z) (d : list Z) => zlen d = na + 1 /\
     (forall k, 0 <= k <= na -> zget d k = Ok (-1) \/ zget d k = Ok (c k)) /\ zget d 0 = Ok 0 /\
     (forall i x, i < m -> zget ab2a i = Ok x -> (forall y, zget ab2a (i + 1) = Ok y -> x <> y) -> zget d (x + 1) = Ok (i + 1))).
  assert (forall m i x d, Inv m d -> zget ab2a i = Ok x -> (forall y, zget ab2a (i + 1) = Ok y -> x <> y) -> i = m ->
     exists d', zset d (x + 1) (i + 1) = Ok d' /\ Inv (m + 1) d') as Hset.
  { intros m i x d (L & F & Z0 & G) Hx Hnext ->. pose proof (Hr x (zget_In _ _ _ Hx)) as Bx.
    destruct (zset_in_range d (x + 1) (m + 1)) as (d' & E'); [lia|]. exists d'. split; [exact E'|].
    split; [rewrite (zset_zlen _ _ _ _ E'); exact L|]. split; [|split].
    - intros k Hk. destruct (Z.eq_dec k (x + 1)) as [->|Hne].
      + right. rewrite (zset_get_eq _ _ _ _ E'). f_equal. symmetry. apply clast; auto.
      + rewrite (zset_get_ne _ _ _ _ _ E') by lia. apply F, Hk.
    - rewrite (zset_get_ne _ _ _ _ _ E') by lia. exact Z0.
    - intros i x' Hi Hx' Hn'. destruct (Z.eq_dec (x' + 1) (x + 1)) as [Heq|Hne].
      + assert (x' = x) by lia. subst x'. pose proof (clast i x Hx' Hn'). pose proof (clast m x Hx Hnext).
        rewrite (zset_get_eq _ _ _ _ E'). f_equal. lia.
      + rewrite (zset_get_ne _ _ _ _ _ E') by lia. apply G; auto. assert (i <> m); [|lia]. intros ->. congruence. }
  destruct (forM_invariant Inv (Z.max 0 (nab - 1)) d1 (fun d ab => a_end <- zget ab2a ab ;; a_start <- zget ab2a (ab + 1) ;;
     if a_end =? a_start then Ok d else zset d (a_end + 1) (ab + 1))) as (d2 & E2 & I2).
  - lia.
  - split; [exact L1|]. split; [|split].
    + intros k Hk. rewrite G1 by exact Hk. destruct (Z.eqb_spec k 0) as [->|]; [right; rewrite c0; reflexivity|left; reflexivity].
    + rewrite G1 by lia. reflexivity.
    + intros i x Hi Hx. apply zget_bounds in Hx. lia.
  - intros i d Hi I. destruct (zget_in_range ab2a i) as (x & Hx); [fold nab; lia|]. destruct (zget_in_range ab2a (i + 1)) as (y & Hy); [fold nab; lia|].
    rewrite Hx, Hy. cbn [bind]. destruct (Z.eqb_spec x y) as [<-|Hne].
    + exists d. split; [reflexivity|]. destruct I as (L & F & Z0 & G). split; [exact L|]. split; [exact F|]. split; [exact Z0|].
      intros k z Hk Hz Hnz. apply G; auto. assert (k <> i); [|lia]. intros ->. assert (z = x) by congruence. subst z. apply (Hnz x Hy). reflexivity.
    + apply Hset; auto. intros y' Hy'. congruence.
  - rewrite E2. cbn [bind].
    assert (exists d3, (if nab =? 0 then Ok d2 else (a_end <- zget ab2a (nab - 1) ;; zset d2 (a_end + 1) nab)) = Ok d3 /\ Inv nab d3) as (d3 & E3 & I3).
    { destruct (Z.eqb_spec nab 0) as [E0|Hne].
      - exists d2. split; [reflexivity|]. rewrite E0 in I2. cbn in I2. rewrite E0. exact I2.
      - destruct (zget_in_range ab2a (nab - 1)) as (x & Hx); [fold nab; lia|]. rewrite Hx. cbn [bind].
        replace (Z.max 0 (nab - 1)) with (nab - 1) in I2 by lia.
        destruct (Hset (nab - 1) (nab - 1) x d2 I2 Hx) as (d3 & E3 & I3); [|reflexivity|].
        + intros y Hy. apply zget_bounds in Hy. fold nab in Hy. lia.
        + replace (nab - 1 + 1) with nab in * by lia. exists d3. auto. }
    rewrite E3. cbn [bind]. exists (fill_right d3). split; [reflexivity|]. destruct I3 as (L & F & Z0 & G).
    split; [rewrite fill_right_zlen; exact L|]. intros k Hk.
    destruct (zget_in_range (fill_right d3) k) as (v & Hv); [rewrite fill_right_zlen; lia|]. rewrite Hv. f_equal. fold (c k).
    assert (forall j x, 0 <= j <= k -> zget d3 j = Ok x -> x <= c k) as Hmax.
    { intros j x Hj Hx. pose proof (cmono j k ltac:(lia)). pose proof (count_nonneg (fun y => y <? k) ab2a). fold (c k) in *.
      destruct (F j ltac:(lia)) as [H'|H']; rewrite H' in Hx; injection Hx as <-; lia. }
    destruct (Z.eq_dec (c k) 0) as [Ec|Ec].
    + rewrite Ec in *. apply (running_max d3 k v Hv ltac:(lia) 0); [lia|exact Z0|exact Hmax].
    + pose proof (count_nonneg (fun y => y <? k) ab2a) as Hp. fold (c k) in Hp.
      pose proof (count_total (fun y => y <? k) ab2a) as Ht. fold (c k) in Ht.
      destruct (zget_in_range ab2a (c k - 1)) as (x & Hx); [lia|].
      pose proof (proj2 (SB (c k - 1) x k Hx)) as Hlt. fold (c k) in Hlt. specialize (Hlt ltac:(lia)).
      pose proof (Hr x (zget_In _ _ _ Hx)).
      apply (running_max d3 k v Hv ltac:(lia) (x + 1)); [lia| |exact Hmax].
      rewrite (G (c k - 1) x); [f_equal; lia|unfold nab; lia|exact Hx|].
      intros y Hy. pose proof (SB (c k - 1 + 1) y k Hy) as Hy'. fold (c k) in Hy'. assert (~ y < k) by (rewrite Hy'; lia). lia.
Qed.

Lemma invert_funnel_spec ab2a na : 0 <= na -> Sorted Z.le ab2a -> (forall x, In x ab2a -> 0 <= x < na) ->
  exists r, invert_funnel ab2a na = Ok r /\ zlen r = na + 1 /\ is_fan r /\ last_of r = Ok (zlen ab2a) /\
  forall a i, in_group r a i <-> zget ab2a i = Ok a.
Proof.
  intros Hna HS Hr. destruct (invert_funnel_counts ab2a na Hna HS Hr) as (r & E & L & G).
  exists r. split; [exact E|]. split; [exact L|].
  assert (forall k, k <= 0 -> count (fun y => y <? k) ab2a = 0) as C0.
  { intros k Hk. pose proof (count_nonneg (fun y => y <? k) ab2a).
    destruct (Z.eq_dec (count (fun y => y <? k) ab2a) 0) as [E0|E0]; [exact E0|].
    destruct (zget_in_range ab2a 0) as (x & Hx); [pose proof (count_total (fun y => y <? k) ab2a); lia|].
    pose proof (proj2 (sorted_below ab2a HS 0 x k Hx) ltac:(lia)). pose proof (Hr x (zget_In _ _ _ Hx)). lia. }
  split; [|split].
  - split; [rewrite G by lia; rewrite C0 by lia; reflexivity|]. intros i lo hi Hlo Hhi.
    pose proof (zget_bounds _ _ _ Hlo). pose proof (zget_bounds _ _ _ Hhi).
    rewrite G in Hlo by lia. rewrite G in Hhi by lia. injection Hlo as <-. injection Hhi as <-. apply count_le. intros; lia.
  - unfold last_of. rewrite L. replace (na + 1 - 1) with na by lia. rewrite G by lia. f_equal. apply count_all.
    intros x Hx. pose proof (Hr x Hx). lia.
  - intros a i. split.
    + intros (lo & hi & Hlo & Hhi & Hb). pose proof (zget_bounds _ _ _ Hlo). pose proof (zget_bounds _ _ _ Hhi).
      rewrite G in Hlo by lia. rewrite G in Hhi by lia. injection Hlo as <-. injection Hhi as <-.
      pose proof (count_nonneg (fun y => y <? a) ab2a). pose proof (count_total (fun y => y <? a + 1) ab2a).
      destruct (zget_in_range ab2a i) as (x & Hx); [lia|]. rewrite Hx. f_equal.
      pose proof (proj2 (sorted_below ab2a HS i x (a + 1) Hx) ltac:(lia)).
      assert (~ x < a) by (rewrite (sorted_below ab2a HS i x a Hx); lia). lia.
    + intros Hx. pose proof (Hr a (zget_In _ _ _ Hx)).
      exists (count (fun y => y <? a) ab2a), (count (fun y => y <? a + 1) ab2a). rewrite !G by lia. split; [reflexivity|]. split; [reflexivity|].
      pose proof (proj1 (sorted_below ab2a HS i a (a + 1) Hx) ltac:(lia)).
      assert (~ i < count (fun y => y <? a) ab2a) by (rewrite <- (sorted_below ab2a HS i a a Hx); lia). lia.
Qed.

(** ** expand *)
Lemma fan_zip f na : is_fan f -> zlen f = na + 1 ->
  forall S (g : S -> Z -> Z -> res S) s,
  forM na s (fun d a => lo <- zget f a ;; hi <- zget f (a + 1) ;; foldM (fun d b => g d a b) (zfromto lo hi) d) =
  foldM (fun d p => g d (fst p) (snd p))
    (flat_map (fun a => map (fun b => (a, b)) (zfromto (nth (Z.to_nat a) f 0) (nth (Z.to_nat (a + 1)) f 0))) (zrange na)) s.
Proof.
  intros Hf Hl S g s. rewrite foldM_flat_map. unfold forM. apply foldM_ext. intros a d Ha. apply in_zrange in Ha.
  destruct (zget_in_range f a) as (lo & Hlo); [lia|]. destruct (zget_in_range f (a + 1)) as (hi & Hhi); [lia|].
  rewrite Hlo, Hhi. cbn [bind]. rewrite foldM_map. cbn [fst snd].
  apply zget_ok in Hlo as [_ Hlo]. apply zget_ok in Hhi as [_ Hhi].
  rewrite (nth_error_nth _ _ 0 Hlo), (nth_error_nth _ _ 0 Hhi). reflexivity.
Qed.

Lemma fan_pairs_snd f na k : is_fan f -> zlen f = na + 1 -> (k <= Z.to_nat na)%nat ->
  map snd (flat_map (fun a => map (fun b => (a, b)) (zfromto (nth (Z.to_nat a) f 0) (nth (Z.to_nat (a + 1)) f 0))) (zrange (Z.of_nat k)))
  = zrange (nth k f 0).
Proof.
  intros Hf Hl. assert (forall j, Z.of_nat j < zlen f -> zget f (Z.of_nat j) = Ok (nth j f 0)) as K.
  { intros j Hj. apply zget_ok. split; [lia|]. rewrite Nat2Z.id. apply nth_error_nth'. unfold zlen in Hj. lia. }
  induction k as [|k IH]; intros Hk.
  - pose proof (K 0%nat ltac:(pose proof (zget_bounds _ _ _ (proj1 Hf)); lia)) as H0. change (Z.of_nat 0) with 0 in H0. rewrite (proj1 Hf) in H0. injection H0 as <-. reflexivity.
  - replace (Z.of_nat (S k)) with (Z.of_nat k + 1) by lia. rewrite zrange_succ by lia. rewrite flat_map_app, map_app, IH by lia.
    cbn [flat_map]. rewrite app_nil_r, map_map. cbn [snd]. rewrite map_id. rewrite Nat2Z.id.
    replace (Z.to_nat (Z.of_nat k + 1)) with (S k) by lia.
    rewrite <- (zfromto_0 (nth k f 0)), <- (zfromto_0 (nth (S k) f 0)). symmetry. apply zfromto_app.
    pose proof (K k ltac:(lia)) as Hk1. pose proof (K (S k) ltac:(lia)) as Hk2. split; [eapply fan_nonneg; eauto|].
    eapply fan_mono; [exact Hf|exact Hk1|exact Hk2|lia].
Qed.

Lemma in_fan_pairs f na a b : is_fan f -> zlen f = na + 1 ->
  In (a, b) (flat_map (fun a => map (fun b => (a, b)) (zfromto (nth (Z.to_nat a) f 0) (nth (Z.to_nat (a + 1)) f 0))) (zrange na)) <-> in_group f a b.
Proof.
  intros Hf Hl. assert (forall j, 0 <= j < zlen f -> zget f j = Ok (nth (Z.to_nat j) f 0)) as K.
  { intros j Hj. apply zget_ok. split; [lia|]. apply nth_error_nth'. unfold zlen in Hj. lia. }
  rewrite in_flat_map. split.
  - intros (a' & Ha & H). apply in_zrange in Ha. apply in_map_iff in H as (b' & Heq & H). injection Heq as -> ->.
    apply in_zfromto in H. exists (nth (Z.to_nat a) f 0), (nth (Z.to_nat (a + 1)) f 0). rewrite !K by lia. auto.
  - intros (lo & hi & Hlo & Hhi & Hb). pose proof (zget_bounds _ _ _ Hlo). pose proof (zget_bounds _ _ _ Hhi).
    exists a. split; [apply in_zrange; lia|]. apply in_map_iff. exists b. split; [reflexivity|]. apply in_zfromto.
    rewrite K in Hlo by lia. rewrite K in Hhi by lia. injection Hlo as <-. injection Hhi as <-. exact Hb.
Qed.

Lemma expand_spec {A} (a_data : list A) f width : is_fan f -> 0 <= width -> zlen a_data = (zlen f - 1) * width ->
  exists n r, last_of f = Ok n /\ expand a_data f width = Ok r /\ zlen r = n * width /\
  forall a b j, in_group f a b -> 0 <= j < width -> zget r (b * width + j) = zget a_data (a * width + j).
Proof.
  intros Hf Hw Hl. destruct (fan_last f Hf) as (n & En & Hn & Hlf). exists n. unfold expand. rewrite En. cbn [bind].
  rewrite blank_ok by nia. cbn [bind]. unfold expand_into, check. rewrite (proj2 (Z.eqb_eq _ _) Hl). cbn [bind].
  assert (zlen f = (zlen f - 1) + 1) as Hlf' by lia.
  rewrite (fan_zip f (zlen f - 1) Hf Hlf' _ (fun d a b => copy_block width a_data a d b)).
  set (dst := repeat _ _). assert (zlen dst = n * width) as Hd by (unfold dst; rewrite zlen_repeat; nia).
  destruct (scatter_ok width a_data (flat_map (fun a => map (fun b => (a, b)) (zfromto (nth (Z.to_nat a) f 0) (nth (Z.to_nat (a + 1)) f 0))) (zrange (zlen f - 1))) dst Hw)
    as (d & E & L & G & _).
  - pose proof (fan_pairs_snd f (zlen f - 1) (Z.to_nat (zlen f - 1)) Hf Hlf' ltac:(lia)) as Hs.
    rewrite Z2Nat.id in Hs by lia. rewrite Hs. apply zrange_NoDup.
  - intros a b H. apply in_fan_pairs in H; auto. destruct (in_group_range f n a b Hf En H). nia.
  - unfold scatter in E. rewrite E. cbn [bind].
    assert (forall a b j, in_group f a b -> 0 <= j < width -> exists x, zget a_data (a * width + j) = Ok x /\ zget d (b * width + j) = Ok (Some x)) as G'.
    { intros a b j H Hj. apply G; [|exact Hj]. apply in_fan_pairs; auto. }
    destruct (freeze_blocks width n d) as (r & Er & Lr & Gr); auto; [congruence| |].
    { intros b j Hb Hj. destruct (in_group_exists f n b Hf En Hb) as (a & Ha). destruct (G' a b j Ha Hj) as (x & _ & Hx). eauto. }
    exists r. split; [reflexivity|]. split; [exact Er|]. split; [exact Lr|]. intros a b j H Hj.
    destruct (G' a b j H Hj) as (x & Hx & Hy). apply Gr in Hy. congruence.
Qed.

(** ** fan_reduce *)
Lemma foldM_reduce {A} (join : A -> A -> A) (g : Z -> res A) bs : forall init vs, mapM g bs = Ok vs ->
  foldM (fun r b => u <- g b ;; Ok (join r u)) bs init = Ok (fold_left join vs init).
Proof.
  induction bs as [|b bs IH]; intros init vs H; cbn [mapM] in H.
  - injection H as <-. reflexivity.
  - apply bind_ok in H as (y & Hy & H). apply bind_ok in H as (ys & Hys & H). injection H as <-.
    cbn [foldM]. rewrite Hy. cbn [bind]. rewrite (IH _ _ Hys). reflexivity.
Qed.

Lemma fan_reduce_tmpl_spec {A} (init : A) join f (b_data : list A) width n : is_fan f -> 0 <= width ->
  last_of f = Ok n -> zlen b_data = n * width ->
  exists r, fan_reduce_tmpl init join f b_data width = Ok r /\ zlen r = (zlen f - 1) * width /\
  forall a lo hi j, zget f a = Ok lo -> zget f (a + 1) = Ok hi -> 0 <= j < width ->
  exists vs, mapM (fun b => zget b_data (b * width + j)) (zfromto lo hi) = Ok vs /\
    zget r (a * width + j) = Ok (fold_left join vs init).
Proof.
  intros Hf Hw En Hl. destruct (fan_last f Hf) as (n' & En' & Hn & Hlf). assert (n' = n) as -> by congruence. clear En'.
  unfold fan_reduce_tmpl. rewrite En. cbn [bind]. unfold check. rewrite (proj2 (Z.eqb_eq _ _) (eq_sym Hl)). cbn [bind].
  rewrite blank_ok by nia. cbn [bind]. set (na := zlen f - 1) in *.
  set (dst := repeat _ _). assert (zlen dst = na * width) as Hd by (unfold dst; rewrite zlen_repeat; unfold na; nia).
  set (inner := fun d a j => lo <- zget f a ;; hi <- zget f (a + 1) ;;
      r <- foldM (fun r b => u <- zget b_data (b * width + j) ;; Ok (join r u)) (zfromto lo hi) init ;;
      zset d (a * width + j) (Some r)).
  assert (forall a lo hi j, zget f a = Ok lo -> zget f (a + 1) = Ok hi -> 0 <= j < width ->
     exists vs, mapM (fun b => zget b_data (b * width + j)) (zfromto lo hi) = Ok vs) as HV.
  { intros a lo hi j Hlo Hhi Hj.
    assert (forall bs, (forall b, In b bs -> exists x, zget b_data (b * width + j) = Ok x) -> exists vs, mapM (fun b => zget b_data (b * width + j)) bs = Ok vs) as Q.
    { induction bs as [|b bs IH]; intros H; [exists []; reflexivity|]. destruct (H b ltac:(left; reflexivity)) as (x & Hx).
      destruct IH as (vs & Hvs); [intros; apply H; right; assumption|]. exists (x :: vs). cbn [mapM]. rewrite Hx. cbn [bind]. rewrite Hvs. reflexivity. }
    apply Q. intros b Hb. apply in_zfromto in Hb.
    destruct (in_group_range f n a b Hf En ltac:(exists lo, hi; auto)) as [Bb _]. apply zget_in_range. nia. }
  set (Good := fun d a j => forall lo hi, zget f a = Ok lo -> zget f (a + 1) = Ok hi ->
     exists vs, mapM (fun b => zget b_data (b * width + j)) (zfromto lo hi) = Ok vs /\
     zget d (a * width + j) = Ok (Some (fold_left join vs init))).
  destruct (forM_invariant (fun i d => zlen d = na * width /\ forall a j, 0 <= a < i -> 0 <= j < width -> Good d a j) na dst
     (fun d a => forM width d (fun d j => inner d a j))) as (d & E & L & G).
  - unfold na; lia.
  - split; [exact Hd|]. intros; lia.
  - intros i d Hi [L G].
    destruct (zget_in_range f i) as (lo & Hlo); [unfold na in *; lia|]. destruct (zget_in_range f (i + 1)) as (hi & Hhi); [unfold na in *; lia|].
    destruct (forM_invariant (fun k d => zlen d = na * width /\ (forall a j, 0 <= a < i -> 0 <= j < width -> Good d a j) /\
       (forall j, 0 <= j < k -> Good d i j)) width d (fun d j => inner d i j) Hw) as (d' & E' & L' & G1 & G2).
    + split; [exact L|]. split; [exact G|]. intros; lia.
    + intros k e Hk (Le & Ge & Ge').
      destruct (HV i lo hi k Hlo Hhi Hk) as (vs & Hvs). unfold inner. rewrite Hlo. cbn [bind]. rewrite Hhi. cbn [bind].
      rewrite (foldM_reduce join (fun b => zget b_data (b * width + k)) _ _ _ Hvs). cbn [bind].
      destruct (zset_in_range e (i * width + k) (Some (fold_left join vs init))) as (e' & Ee); [nia|].
      exists e'. split; [exact Ee|]. split; [rewrite (zset_zlen _ _ _ _ Ee); exact Le|]. split.
      * intros a j Ha Hj lo' hi' Hlo' Hhi'. rewrite (zset_get_ne _ _ _ _ _ Ee) by nia. apply Ge; auto.
      * intros j Hj lo' hi' Hlo' Hhi'. destruct (Z.eq_dec j k) as [->|Hne].
        -- exists vs. assert (lo' = lo) as -> by congruence. assert (hi' = hi) as -> by congruence. split; [exact Hvs|]. eapply zset_get_eq; eauto.
        -- rewrite (zset_get_ne _ _ _ _ _ Ee) by lia. apply Ge'; auto. lia.
    + exists d'. split; [exact E'|]. split; [exact L'|]. intros a j Ha Hj. destruct (Z.eq_dec a i) as [->|Hne]; [apply G2, Hj|apply G1; [lia|exact Hj]].
  - unfold inner in E. rewrite E. cbn [bind].
    destruct (freeze_blocks width na d) as (r & Er & Lr & Gr); auto; [unfold na; lia| |].
    { intros a j Ha Hj. destruct (zget_in_range f a) as (lo & Hlo); [unfold na in *; lia|]. destruct (zget_in_range f (a + 1)) as (hi & Hhi); [unfold na in *; lia|].
      destruct (G a j Ha Hj lo hi Hlo Hhi) as (vs & _ & Hx). eauto. }
    exists r. split; [exact Er|]. split; [exact Lr|]. intros a lo hi j Hlo Hhi Hj.
    pose proof (zget_bounds _ _ _ Hlo). pose proof (zget_bounds _ _ _ Hhi).
    destruct (G a j ltac:(unfold na; lia) Hj lo hi Hlo Hhi) as (vs & Hvs & Hx). exists vs. split; [exact Hvs|]. apply Gr, Hx.
Qed.

Lemma fold_max_spec l : forall d, let r := fold_left Z.max l d in
  d <= r /\ (forall x, In x l -> x <= r) /\ (r = d \/ In r l).
Proof.
  induction l as [|x l IH]; intros d r; cbn in r; [split; [lia|split; [intros ? []|left; reflexivity]]|].
  destruct (IH (Z.max d x)) as (H1 & H2 & H3). fold r in H1, H2, H3. split; [lia|]. split.
  - intros y [<-|Hy]; [lia|auto].
  - destruct H3 as [H3|H3]; [|right; right; exact H3]. destruct (Z.max_spec d x) as [[_ E]|[_ E]]; rewrite E in H3.
    + right; left; congruence.
    + left; exact H3.
Qed.

Lemma fan_reduce_spec tmin tmax o f b_data width n : is_fan f -> 0 <= width ->
  last_of f = Ok n -> zlen b_data = n * width -> (forall x, In x b_data -> tmin <= x <= tmax) ->
  exists r, fan_reduce tmin tmax f b_data width o = Ok r /\ zlen r = (zlen f - 1) * width /\
  forall a lo hi j, zget f a = Ok lo -> zget f (a + 1) = Ok hi -> 0 <= j < width ->
  exists vs x, mapM (fun b => zget b_data (b * width + j)) (zfromto lo hi) = Ok vs /\
    zget r (a * width + j) = Ok x /\ reduced tmin tmax o vs x.
Proof.
  intros Hf Hw En Hl Ht.
  assert (forall vs j bs, mapM (fun b => zget b_data (b * width + j)) bs = Ok vs -> forall v, In v vs -> tmin <= v <= tmax) as HB.
  { intros vs j bs H v Hv. apply Ht. apply mapM_ok in H. induction H as [|b v' bs vs Hb _ IH]; [destruct Hv|].
    destruct Hv as [<-|Hv]; [eapply zget_In; eauto|auto]. }
  destruct o; cbn [fan_reduce].
  - destruct (fan_reduce_tmpl_spec tmax Z.min f b_data width n Hf Hw En Hl) as (r & E & L & G).
    exists r. split; [exact E|]. split; [exact L|]. intros a lo hi j Hlo Hhi Hj. destruct (G a lo hi j Hlo Hhi Hj) as (vs & Hvs & Hx).
    exists vs, (fold_left Z.min vs tmax). split; [exact Hvs|]. split; [exact Hx|]. cbn.
    destruct (fold_min_spec vs tmax) as (H1 & H2 & H3). destruct vs as [|v vs]; [reflexivity|]. cbn [length Nat.eqb]. split; [|exact H2].
    destruct H3 as [H3|H3]; [|exact H3]. pose proof (H2 v ltac:(left; reflexivity)) as Hv. pose proof (HB _ _ _ Hvs v ltac:(left; reflexivity)). left. lia.
  - destruct (fan_reduce_tmpl_spec tmin Z.max f b_data width n Hf Hw En Hl) as (r & E & L & G).
    exists r. split; [exact E|]. split; [exact L|]. intros a lo hi j Hlo Hhi Hj. destruct (G a lo hi j Hlo Hhi Hj) as (vs & Hvs & Hx).
    exists vs, (fold_left Z.max vs tmin). split; [exact Hvs|]. split; [exact Hx|]. cbn.
    destruct (fold_max_spec vs tmin) as (H1 & H2 & H3). destruct vs as [|v vs]; [reflexivity|]. cbn [length Nat.eqb]. split; [|exact H2].
    destruct H3 as [H3|H3]; [|exact H3]. pose proof (H2 v ltac:(left; reflexivity)) as Hv. pose proof (HB _ _ _ Hvs v ltac:(left; reflexivity)). left. lia.
  - destruct (fan_reduce_tmpl_spec 0 Z.add f b_data width n Hf Hw En Hl) as (r & E & L & G).
    exists (map (narrow tmin tmax) r). rewrite E. split; [reflexivity|]. split; [rewrite zlen_map; exact L|].
    intros a lo hi j Hlo Hhi Hj. destruct (G a lo hi j Hlo Hhi Hj) as (vs & Hvs & Hx).
    exists vs, (narrow tmin tmax (fold_left Z.add vs 0)). split; [exact Hvs|]. split; [rewrite zget_map, Hx; reflexivity|].
    cbn [reduced]. intros Hr. rewrite fold_left_zsum. unfold narrow. rewrite Z.mod_small; lia.
Qed.

Lemma fan_reduce_i8_overflow :
  exists f b_data, is_fan f /\ last_of f = Ok (zlen b_data) /\ (forall x, In x b_data -> x = 1) /\
  zsum b_data = 128 /\ fan_reduce (-128) 127 f b_data 1 OMEGA_H_SUM = Ok [-128].
Proof.
  exists (offset_scan [128]), (repeat 1 128). split; [apply offset_scan_fan; intros x [<-|[]]; lia|].
  split; [reflexivity|]. split; [intros x H; apply repeat_spec in H; exact H|]. split; vm_compute; reflexivity.
Qed.
