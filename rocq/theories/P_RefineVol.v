(** Edge splits: areas and volumes. *)
From Coq Require Import Ring_theory Ring Permutation.
From Verif Require Import Prelude M_Array M_Scan M_Map M_Align M_Template M_Graph M_Adj M_Swap3d M_Refine S_Map S_Scan S_Graph S_Adj S_Swap3d S_Swap2d S_Coarsen S_Refine P_Graph P_Mark P_SwapTopo P_SwapVolume P_Swap2d P_Coarsen P_Refine.
Local Open Scope Z_scope.

Lemma replaced_coords {P} (x y : Z -> P) old2new a m vs : forall ca, mapM (replaced old2new a m) vs = Ok ca -> (forall v n, In v vs -> zget old2new v = Ok n -> y n = x v) -> map y ca = map (fun v => if v =? a then y m else x v) vs.
Proof.
  induction vs as [|v vs IH]; intros ca E H; cbn [mapM] in E; [injection E as <-; reflexivity|]. apply bind_ok in E as (n & En & E). apply bind_ok in E as (ca' & Eca & E). injection E as <-. cbn [map]. f_equal; [|apply IH; [exact Eca | intros; eapply H; eauto; right; assumption]].
  unfold replaced in En. destruct (v =? a); [congruence|]. eapply H; eauto. left. reflexivity.
Qed.

Section ring.
Context (R : Type) (rO rI : R) (radd rmul rsub : R -> R -> R) (ropp : R -> R) (Rth : ring_theory rO rI radd rmul rsub ropp eq).
Add Ring Rr : Rth.

Definition areap (l : list (R * R)) : R := match l with [(ax, ay); (bx, by_); (cx, cy)] => rsub (rmul (rsub bx ax) (rsub cy ay)) (rmul (rsub by_ ay) (rsub cx ax)) | _ => rO end.
Lemma area_map c t : zlen t = 3 -> area rO rmul rsub c t = areap (map c t).
Proof. destruct t as [|p [|q [|r [|s t]]]]; intros H; try discriminate; [unfold area, areap; cbn [map]; destruct (c p), (c q), (c r); reflexivity | rewrite !zlen_cons in H; pose proof (zlen_nonneg t); lia]. Qed.
Definition volp (l : list (R * R * R)) : R := match l with [o; p; q; r] => det3 radd rmul rsub (sub3 rsub p o) (sub3 rsub q o) (sub3 rsub r o) | _ => rO end.
Lemma vol_map c t : zlen t = 4 -> volume rO radd rmul rsub c t = volp (map c t).
Proof. destruct t as [|p [|q [|r [|s [|u t]]]]]; intros H; try discriminate; [reflexivity | rewrite !zlen_cons in H; pose proof (zlen_nonneg t); lia]. Qed.

Lemma area_half x a b vs t : zlen vs = 3 -> NoDup vs -> In a vs -> In b vs -> a <> b ->
  areap (map (fun v => if v =? a then between2 rI radd rmul rsub t (x a) (x b) else x v) vs) = rmul (rsub rI t) (areap (map x vs)) /\
  areap (map (fun v => if v =? b then between2 rI radd rmul rsub t (x a) (x b) else x v) vs) = rmul t (areap (map x vs)).
Proof.
  intros L ND Ha Hb Hab. destruct vs as [|p [|q [|r [|s vs]]]]; try discriminate; [|rewrite !zlen_cons in L; pose proof (zlen_nonneg vs); lia]. clear L.
  inversion ND as [|? ? N1 ND1]; subst. inversion ND1 as [|? ? N2 ND2]; subst. cbn [In] in N1, N2, Ha, Hb.
  assert (p <> q /\ p <> r /\ q <> r) as (Npq & Npr & Nqr) by (repeat split; intros ->; tauto). clear ND ND1 ND2 N1 N2.
  assert (forall u v, u <> v -> (u =? v) = false) as F by (intros u v; apply Z.eqb_neq).
  destruct (x p) as [p0 p1] eqn:Xp, (x q) as [q0 q1] eqn:Xq, (x r) as [r0 r1] eqn:Xr.
  destruct Ha as [<-|[<-|[<-|[]]]], Hb as [<-|[<-|[<-|[]]]]; try congruence; cbn [map]; rewrite !Z.eqb_refl, ?(F p q), ?(F q p), ?(F p r), ?(F r p), ?(F q r), ?(F r q) by congruence; rewrite Xp, Xq, Xr; cbn [between2 areap]; split; ring.
Qed.
Lemma vol_half x a b vs t : zlen vs = 4 -> NoDup vs -> In a vs -> In b vs -> a <> b ->
  volp (map (fun v => if v =? a then between3 rI radd rmul rsub t (x a) (x b) else x v) vs) = rmul (rsub rI t) (volp (map x vs)) /\
  volp (map (fun v => if v =? b then between3 rI radd rmul rsub t (x a) (x b) else x v) vs) = rmul t (volp (map x vs)).
Proof.
  intros L ND Ha Hb Hab. destruct vs as [|p [|q [|r [|s [|u vs]]]]]; try discriminate; [|rewrite !zlen_cons in L; pose proof (zlen_nonneg vs); lia]. clear L.
  inversion ND as [|? ? N1 ND1]; subst. inversion ND1 as [|? ? N2 ND2]; subst. inversion ND2 as [|? ? N3 ND3]; subst. cbn [In] in N1, N2, N3, Ha, Hb.
  assert (p <> q /\ p <> r /\ p <> s /\ q <> r /\ q <> s /\ r <> s) as (Npq & Npr & Nps & Nqr & Nqs & Nrs) by (repeat split; intros ->; tauto). clear ND ND1 ND2 ND3 N1 N2 N3.
  assert (forall u v, u <> v -> (u =? v) = false) as F by (intros u v; apply Z.eqb_neq).
  destruct (x p) as [[p0 p1] p2] eqn:Xp, (x q) as [[q0 q1] q2] eqn:Xq, (x r) as [[r0 r1] r2] eqn:Xr, (x s) as [[s0 s1] s2] eqn:Xs.
  destruct Ha as [<-|[<-|[<-|[<-|[]]]]], Hb as [<-|[<-|[<-|[<-|[]]]]]; try congruence; cbn [map]; rewrite !Z.eqb_refl, ?(F p q), ?(F q p), ?(F p r), ?(F r p), ?(F q r), ?(F r q), ?(F p s), ?(F s p), ?(F q s), ?(F s q), ?(F r s), ?(F s r) by congruence; rewrite Xp, Xq, Xr, Xs; cbn [between3 volp sub3 det3]; split; ring.
Qed.

Lemma children_area old2new vs a b m p (x y : Z -> R * R) t : zlen vs = 3 -> NoDup vs -> In a vs -> In b vs -> a <> b -> children 2 old2new vs a b m p -> (forall v n, In v vs -> zget old2new v = Ok n -> y n = x v) -> y m = between2 rI radd rmul rsub t (x a) (x b) ->
  area rO rmul rsub y (fst p) = rmul (rsub rI t) (area rO rmul rsub x vs) /\ area rO rmul rsub y (snd p) = rmul t (area rO rmul rsub x vs).
Proof.
  intros L ND Ha Hb Hab (ca & cb & Ea & Eb & Oa & Ob) Hxy Hm. change (oriented_as 2) with same_turn in Oa, Ob. rewrite (turn_area rO rI radd rmul rsub ropp Rth y _ _ Oa), (turn_area rO rI radd rmul rsub ropp Rth y _ _ Ob).
  rewrite (area_map x vs L), (area_map y ca), (area_map y cb) by (unfold zlen; rewrite ?(mapM_length _ _ _ Ea), ?(mapM_length _ _ _ Eb); exact L). rewrite (replaced_coords x y _ _ _ _ _ Ea Hxy), (replaced_coords x y _ _ _ _ _ Eb Hxy), Hm. apply area_half; assumption.
Qed.
Lemma children_volume old2new vs a b m p (x y : Z -> R * R * R) t : zlen vs = 4 -> NoDup vs -> In a vs -> In b vs -> a <> b -> children 3 old2new vs a b m p -> (forall v n, In v vs -> zget old2new v = Ok n -> y n = x v) -> y m = between3 rI radd rmul rsub t (x a) (x b) ->
  volume rO radd rmul rsub y (fst p) = rmul (rsub rI t) (volume rO radd rmul rsub x vs) /\ volume rO radd rmul rsub y (snd p) = rmul t (volume rO radd rmul rsub x vs).
Proof.
  intros L ND Ha Hb Hab (ca & cb & Ea & Eb & Oa & Ob) Hxy Hm. change (oriented_as 3) with same_orientation in Oa, Ob. rewrite (vol_orient rO rI radd rmul rsub ropp Rth y _ _ Oa), (vol_orient rO rI radd rmul rsub ropp Rth y _ _ Ob).
  rewrite (vol_map x vs L), (vol_map y ca), (vol_map y cb) by (unfold zlen; rewrite ?(mapM_length _ _ _ Ea), ?(mapM_length _ _ _ Eb); exact L). rewrite (replaced_coords x y _ _ _ _ _ Ea Hxy), (replaced_coords x y _ _ _ _ _ Eb Hxy), Hm. apply vol_half; assumption.
Qed.
End ring.

Lemma distinct_NoDup d dv2v dom vs : 0 <= d -> verts_of (d + 1) dv2v dom = Ok vs -> distinct_verts d dv2v dom -> NoDup vs /\ zlen vs = d + 1.
Proof.
  intros Hd E H. unfold verts_of in E. split; [|unfold zlen; rewrite (mapM_length _ _ _ E), zrange_length; lia].
  apply NoDup_nth_error. intros i j Hi Eij. assert (length vs = Z.to_nat (d + 1)) as L by (rewrite (mapM_length _ _ _ E), zrange_length; reflexivity).
  destruct (nth_error vs i) as [v|] eqn:Ei; [|apply nth_error_None in Ei; lia]. assert (j < length vs)%nat as Hj by (apply nth_error_Some; congruence).
  assert (forall k, (k < length vs)%nat -> nth_error vs k = Some v -> zget dv2v (dom * (d + 1) + Z.of_nat k) = Ok v) as K.
  { intros k Hk Ek. assert (nth_error (zrange (d + 1)) k = Some (Z.of_nat k)) as Ez by (apply zrange_nth; lia). destruct (nth_error_mapM _ _ _ _ _ E Ez) as (y & Ny & Ey). congruence. }
  specialize (H (Z.of_nat i) (Z.of_nat j) v ltac:(lia) ltac:(lia) (K i Hi Ei) (K j Hj (eq_sym Eij))). lia.
Qed.

Section final.
Variables (nents : Z -> Z) (verts : Z -> list Z) (edge_up : Z -> adj) (keys2edges mids old2new : list Z).
Hypothesis Hkeys : forall e, In e keys2edges -> 0 <= e < nents 1.
Hypothesis Hmids : zlen mids = zlen keys2edges.

Lemma volume_ok : split_mesh 3 nents verts edge_up -> (forall d, 1 <= d <= 3 -> forall v, In v (verts d) -> 0 <= v < zlen old2new) ->
  exists k2p pv, refine_products 3 3 verts edge_up keys2edges mids old2new = Ok (k2p, pv) /\
  forall key e a b m doms, zget keys2edges key = Ok e -> zget (verts 1) (e * 2 + 0) = Ok a -> zget (verts 1) (e * 2 + 1) = Ok b -> a <> b -> zget mids key = Ok m -> adj_targets (edge_up 3) e = Ok doms ->
  exists lo hi ps, zget k2p key = Ok lo /\ zget k2p (key + 1) = Ok hi /\ ents_between 4 pv lo hi = Ok (unpair ps) /\
  forall (R : Type) (rO rI : R) radd rmul rsub ropp, ring_theory rO rI radd rmul rsub ropp eq -> forall t x y,
  (forall v n, In v (verts 3) -> zget old2new v = Ok n -> y n = x v) -> y m = between3 rI radd rmul rsub t (x a) (x b) ->
  Forall2 (fun dom p => exists vs, verts_of 4 (verts 3) dom = Ok vs /\ volume rO radd rmul rsub y (fst p) = rmul (rsub rI t) (volume rO radd rmul rsub x vs) /\ volume rO radd rmul rsub y (snd p) = rmul t (volume rO radd rmul rsub x vs)) doms ps.
Proof.
  intros Hmesh Hnew. destruct (pairs_at 3 nents verts edge_up keys2edges mids old2new Hmesh Hkeys Hmids Hnew 3) as (L & E & LL & HW & HP); [lia|]. unfold refine_products. rewrite E. cbn [bind]. change (3 =? 3) with true. cbv iota. eexists _, _. split; [reflexivity|].
  intros key e a b m doms Ee Ea Eb Hab Em Ed. destruct (HP key e a b m doms Ee Ea Eb Em Ed) as (ps & N & HF). destruct (flat_ents (3 + 1) L (Z.to_nat key) _ ltac:(lia) HW N) as (lo & hi & F1 & F2 & F3). pose proof (zget_bounds _ _ _ Ee) as Bk. rewrite Z2Nat.id in F1, F2 by lia. exists lo, hi, ps. split; [exact F1|]. split; [exact F2|]. split; [exact F3|].
  intros R rO rI radd rmul rsub ropp Rth t x y Hxy Hm. eapply Forall2_weaken; [|exact HF]. intros dom p (vs & V1 & V2 & V3 & V4 & V5). exists vs. split; [exact V1|]. destruct (distinct_NoDup 3 (verts 3) dom vs ltac:(lia) V1 V4) as [ND Lvs].
  apply (children_volume R rO rI radd rmul rsub ropp Rth old2new vs a b m p x y t); try assumption. intros v n Hv E0. apply Hxy; [|exact E0]. unfold verts_of in V1. destruct (mapM_in_inv _ _ _ _ V1 Hv) as (j & Ej & _). eapply zget_In, Ej.
Qed.
Lemma area_ok : split_mesh 2 nents verts edge_up -> (forall d, 1 <= d <= 2 -> forall v, In v (verts d) -> 0 <= v < zlen old2new) ->
  exists k2p pv, refine_products 2 2 verts edge_up keys2edges mids old2new = Ok (k2p, pv) /\
  forall key e a b m doms, zget keys2edges key = Ok e -> zget (verts 1) (e * 2 + 0) = Ok a -> zget (verts 1) (e * 2 + 1) = Ok b -> a <> b -> zget mids key = Ok m -> adj_targets (edge_up 2) e = Ok doms ->
  exists lo hi ps, zget k2p key = Ok lo /\ zget k2p (key + 1) = Ok hi /\ ents_between 3 pv lo hi = Ok (unpair ps) /\
  forall (R : Type) (rO rI : R) radd rmul rsub ropp, ring_theory rO rI radd rmul rsub ropp eq -> forall t x y,
  (forall v n, In v (verts 2) -> zget old2new v = Ok n -> y n = x v) -> y m = between2 rI radd rmul rsub t (x a) (x b) ->
  Forall2 (fun dom p => exists vs, verts_of 3 (verts 2) dom = Ok vs /\ area rO rmul rsub y (fst p) = rmul (rsub rI t) (area rO rmul rsub x vs) /\ area rO rmul rsub y (snd p) = rmul t (area rO rmul rsub x vs)) doms ps.
Proof.
  intros Hmesh Hnew. destruct (pairs_at 2 nents verts edge_up keys2edges mids old2new Hmesh Hkeys Hmids Hnew 2) as (L & E & LL & HW & HP); [lia|]. unfold refine_products. rewrite E. cbn [bind]. change (2 =? 2) with true. cbv iota. eexists _, _. split; [reflexivity|].
  intros key e a b m doms Ee Ea Eb Hab Em Ed. destruct (HP key e a b m doms Ee Ea Eb Em Ed) as (ps & N & HF). destruct (flat_ents (2 + 1) L (Z.to_nat key) _ ltac:(lia) HW N) as (lo & hi & F1 & F2 & F3). pose proof (zget_bounds _ _ _ Ee) as Bk. rewrite Z2Nat.id in F1, F2 by lia. exists lo, hi, ps. split; [exact F1|]. split; [exact F2|]. split; [exact F3|].
  intros R rO rI radd rmul rsub ropp Rth t x y Hxy Hm. eapply Forall2_weaken; [|exact HF]. intros dom p (vs & V1 & V2 & V3 & V4 & V5). exists vs. split; [exact V1|]. destruct (distinct_NoDup 2 (verts 2) dom vs ltac:(lia) V1 V4) as [ND Lvs].
  apply (children_area R rO rI radd rmul rsub ropp Rth old2new vs a b m p x y t); try assumption. intros v n Hv E0. apply Hxy; [|exact E0]. unfold verts_of in V1. destruct (mapM_in_inv _ _ _ _ V1 Hv) as (j & Ej & _). eapply zget_In, Ej.
Qed.
End final.
