From Verif Require Import Prelude M_Comm.
Local Open Scope Z_scope.

Lemma mapM_pure {A B} (g : A -> B) (l : list A) : mapM (fun p => Ok (g p)) l = Ok (map g l).
Proof. induction l as [|x t IH]; [reflexivity|]. cbn [mapM map]. rewrite IH. reflexivity. Qed.

Lemma combine_map_self {A B} (g : A -> B) (l : list A) : combine (map g l) l = map (fun x => (g x, x)) l.
Proof. induction l as [|x t IH]; [reflexivity|]. cbn [combine map]. rewrite IH. reflexivity. Qed.

Lemma bcast_string_result (ss : list (list Z)) root s0 s : zget ss 0 = Ok s0 -> zget ss root = Ok s ->
  bcast_string ss root = Ok (map (fun _ => resize (zlen s0) s) ss).
Proof.
  intros E0 E. unfold bcast_string, bcast. rewrite zget_map, E0. cbn [bind].
  rewrite map_map, mapM_pure. cbn [bind]. rewrite zget_map.
  rewrite combine_map_self, zget_map, E. cbn [bind fst snd]. rewrite !map_map. reflexivity.
Qed.

Lemma resize_same (s : list Z) n : n = zlen s -> resize n s = s.
Proof.
  intros ->. unfold resize, zlen. rewrite Nat2Z.id, firstn_all, Nat.sub_diag. apply app_nil_r.
Qed.

Lemma resize_spec (s : list Z) n : 0 <= n -> zlen (resize n s) = n /\
  forall i, 0 <= i < n -> zget (resize n s) i = if i <? zlen s then zget s i else Ok 0.
Proof.
  intros Hn. unfold resize. assert (L : zlen (firstn (Z.to_nat n) s) = Z.min n (zlen s)) by (unfold zlen; rewrite firstn_length; lia).
  split.
  - rewrite zlen_app, L. unfold zlen. rewrite repeat_length. lia.
  - intros i Hi. destruct (Z.ltb_spec i (zlen s)) as [H|H].
    + rewrite zget_app_l by lia. destruct (zget_in_range s i) as (x & E); [lia|]. rewrite E.
      apply zget_ok in E as (_ & En). apply zget_ok. split; [lia|]. rewrite nth_error_firstn_lt by lia. exact En.
    + rewrite zget_app_r by lia. apply zget_ok. split; [lia|]. rewrite L.
      set (k := (Z.to_nat n - length s)%nat). assert (Hk : (Z.to_nat (i - Z.min n (zlen s)) < k)%nat) by (unfold zlen in *; lia).
      revert Hk. generalize (Z.to_nat (i - Z.min n (zlen s))) as j. generalize k. clear. 
      induction k as [|k IH]; intros [|j] Hj; cbn; try lia; try reflexivity. apply IH. lia.
Qed.

Lemma bcast_string_spec (ss : list (list Z)) root s0 s : zget ss 0 = Ok s0 -> zget ss root = Ok s ->
  exists out, bcast_string ss root = Ok out /\ zlen out = zlen ss /\
  forall t, In t out -> zlen t = zlen s0 /\
    forall i, 0 <= i < zlen s0 -> zget t i = if i <? zlen s then zget s i else Ok 0.
Proof.
  intros E0 E. eexists. split; [exact (bcast_string_result _ _ _ _ E0 E)|]. split; [apply zlen_map|].
  intros t Ht. apply in_map_iff in Ht as (x & <- & _). apply resize_spec, zlen_nonneg.
Qed.

Lemma bcast_string_same (ss : list (list Z)) root s0 s : zget ss 0 = Ok s0 -> zget ss root = Ok s -> zlen s0 = zlen s ->
  bcast_string ss root = Ok (map (fun _ => s) ss).
Proof. intros E0 E L. rewrite (bcast_string_result _ _ _ _ E0 E), resize_same by exact L. reflexivity. Qed.

Lemma bcast_string_same_only (ss : list (list Z)) root s0 s : zget ss 0 = Ok s0 -> zget ss root = Ok s ->
  bcast_string ss root = Ok (map (fun _ => s) ss) -> zlen s0 = zlen s.
Proof.
  intros E0 E H. rewrite (bcast_string_result _ _ _ _ E0 E) in H. destruct ss as [|x t]; [cbn in E0; discriminate|].
  cbn [map] in H. assert (H1 : resize (zlen s0) s = s) by congruence. rewrite <- H1 at 1.
  symmetry. rewrite H1 at 1. rewrite <- H1. apply resize_spec, zlen_nonneg.
Qed.

Lemma exscan_from_get : forall (xs : list Z) acc r x, zget xs r = Ok x ->
  zget (exscan_from acc xs) r = Ok (acc + fold_right Z.add 0 (firstn (Z.to_nat r) xs)).
Proof.
  induction xs as [|y t IH]; intros acc r x E.
  - apply zget_bounds in E. unfold zlen in E; cbn [length] in E; lia.
  - pose proof (zget_bounds _ _ _ E) as Hr. destruct (Z.eq_dec r 0) as [->|Hn].
    + cbn. f_equal. lia.
    + cbn [exscan_from]. replace (Z.to_nat r) with (S (Z.to_nat (r - 1))) by lia. cbn [firstn fold_right].
      change (y :: t) with ([y] ++ t) in E. rewrite zget_app_r in E by (change (zlen [y]) with 1; lia).
      change (acc :: exscan_from (acc + y) t) with ([acc] ++ exscan_from (acc + y) t).
      rewrite zget_app_r by (change (zlen [acc]) with 1; lia). change (zlen [acc]) with 1. change (zlen [y]) with 1 in E.
      rewrite (IH (acc + y) (r - 1) x E). f_equal. lia.
Qed.

Lemma bcast_string_cut : exists ss root s, zget ss root = Ok s /\ bcast_string ss root <> Ok (map (fun _ => s) ss).
Proof. exists [[97]; [120; 121; 122]], 1, [120; 121; 122]. split; [reflexivity|discriminate]. Qed.
