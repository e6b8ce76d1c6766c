From Verif Require Import Prelude M_Array M_Par M_Scan S_Scan M_Sort S_Sort M_Map S_Map M_Dist S_Dist M_Owners S_Owners P_Array P_Scan P_Map P_Map2 P_Fan P_Dist P_Dist2 P_Dist3 P_Dist4 P_Dist5 P_Dist6 P_Link P_Owners M_Migrate.
Local Open Scope Z_scope.

Lemma fromto_invariant {S} (P : Z -> S -> Prop) (f : S -> Z -> res S) lo hi s : lo <= hi -> P lo s ->
  (forall u s, lo <= u < hi -> P u s -> exists s', f s u = Ok s' /\ P (u + 1) s') ->
  exists s', foldM f (zfromto lo hi) s = Ok s' /\ P hi s'.
Proof.
  intros Hle H0 Hs. assert (forall n, lo + Z.of_nat n <= hi -> exists s', foldM f (zfromto lo (lo + Z.of_nat n)) s = Ok s' /\ P (lo + Z.of_nat n) s') as H.
  { induction n as [|n IH]; intros Hn.
    - replace (lo + Z.of_nat 0) with lo by lia. rewrite zfromto_nil by lia. exists s. auto.
    - destruct IH as (s' & E & Hp); [lia|]. destruct (Hs (lo + Z.of_nat n) s' ltac:(lia) Hp) as (s2 & E2 & Hp2).
      replace (lo + Z.of_nat (Datatypes.S n)) with (lo + Z.of_nat n + 1) by lia. rewrite zfromto_snoc by lia.
      exists s2. split; [|exact Hp2]. rewrite foldM_app, E. cbn [bind foldM]. rewrite E2. reflexivity. }
  destruct (H (Z.to_nat (hi - lo)) ltac:(lia)) as (s' & E & Hp). replace (lo + Z.of_nat (Z.to_nat (hi - lo))) with hi in * by lia. eauto.
Qed.

(** * keeping one use per rank *)
Section uniq.
Context (ranks : list Z) (rk : Z -> Z).
Hypothesis Rk : forall x, 0 <= x < zlen ranks -> zget ranks x = Ok (rk x).

Definition again lo x := existsb (fun v => rk v =? rk x) (zfromto lo x).
Definition seen lo u x := existsb (fun v => rk v =? rk x) (zfromto lo (Z.min u x)).

Lemma seen_true lo u x : seen lo u x = true <-> exists v, lo <= v < Z.min u x /\ rk v = rk x.
Proof.
  unfold seen. rewrite existsb_exists. split.
  - intros (v & Hv & E). apply in_zfromto in Hv. exists v. split; [exact Hv|lia].
  - intros (v & Hv & E). exists v. split; [apply in_zfromto; exact Hv|lia].
Qed.
Lemma seen_ext lo u u' x x' : (seen lo u x = true <-> seen lo u' x' = true) -> seen lo u x = seen lo u' x'.
Proof. destruct (seen lo u x), (seen lo u' x'); intros [H1 H2]; try reflexivity; [symmetry; auto|auto]. Qed.

Lemma strike keep rank lo hi : 0 <= lo -> hi <= zlen ranks -> zlen keep = zlen ranks -> lo <= hi ->
  exists keep', foldM (fun keep u2 => rank2 <- zget ranks u2 ;; if rank2 =? rank then zset keep u2 0 else Ok keep) (zfromto lo hi) keep = Ok keep' /\
  zlen keep' = zlen ranks /\
  forall x, 0 <= x < zlen ranks -> zget keep' x = if (lo <=? x) && (x <? hi) && (rk x =? rank) then Ok 0 else zget keep x.
Proof.
  intros H0 Hh Lk Hle.
  destruct (fromto_invariant (fun u k => zlen k = zlen ranks /\ forall x, 0 <= x < zlen ranks -> zget k x = if (lo <=? x) && (x <? u) && (rk x =? rank) then Ok 0 else zget keep x)
    (fun keep u2 => rank2 <- zget ranks u2 ;; if rank2 =? rank then zset keep u2 0 else Ok keep) lo hi keep Hle) as (k & E & Lk' & G).
  - split; [exact Lk|]. intros x Hx. destruct (Z.leb_spec lo x), (Z.ltb_spec x lo); try lia; reflexivity.
  - intros u k Hu [Lk1 G]. rewrite Rk by lia. cbn [bind]. destruct (Z.eqb_spec (rk u) rank) as [Er|Nr].
    + destruct (zset_in_range k u 0) as (k' & Ek); [lia|]. exists k'. split; [exact Ek|]. split; [rewrite (zset_zlen _ _ _ _ Ek); exact Lk1|].
      intros x Hx. destruct (Z.eq_dec x u) as [->|Nx].
      * rewrite (zset_get_eq _ _ _ _ Ek). destruct (Z.leb_spec lo u), (Z.ltb_spec u (u + 1)), (Z.eqb_spec (rk u) rank); try lia; reflexivity.
      * rewrite (zset_get_ne _ _ _ _ _ Ek) by lia. rewrite G by exact Hx. destruct (Z.ltb_spec x (u + 1)), (Z.ltb_spec x u); try lia; reflexivity.
    + exists k. split; [reflexivity|]. split; [exact Lk1|]. intros x Hx. rewrite G by exact Hx.
      destruct (Z.ltb_spec x (u + 1)), (Z.ltb_spec x u); try lia; try reflexivity. assert (x = u) as -> by lia.
      rewrite (proj2 (Z.eqb_neq _ _) Nr), !Bool.andb_false_r. reflexivity.
  - exists k. auto.
Qed.

Lemma uniq_kernel_ok keep lo hi : 0 <= lo -> lo <= hi -> hi <= zlen ranks -> zlen keep = zlen ranks ->
  (forall x, lo <= x < hi -> zget keep x = Ok 1) ->
  exists keep' degree, uniq_kernel ranks lo hi keep = Ok (keep', degree) /\ zlen keep' = zlen ranks /\
  (forall x, 0 <= x < zlen ranks -> zget keep' x = if (lo <=? x) && (x <? hi) then Ok (if again lo x then 0 else 1) else zget keep x) /\
  degree = zlen (filter (fun x => negb (again lo x)) (zfromto lo hi)).
Proof.
  intros H0 Hle Hh Lk K1. unfold uniq_kernel.
  destruct (fromto_invariant (fun u (st : list Z * Z) => zlen (fst st) = zlen ranks /\
      (forall x, 0 <= x < zlen ranks -> zget (fst st) x = if (lo <=? x) && (x <? hi) then Ok (if seen lo u x then 0 else 1) else zget keep x) /\
      snd st = zlen (filter (fun x => negb (again lo x)) (zfromto lo u)))
    (fun st serv_use =>
      let '(keep, degree) := st in
      k <- zget keep serv_use ;;
      if k =? 0 then Ok (keep, degree) else
      rank <- zget ranks serv_use ;;
      keep <- foldM (fun keep serv_use2 =>
        rank2 <- zget ranks serv_use2 ;;
        if rank2 =? rank then zset keep serv_use2 0 else Ok keep) (zfromto (serv_use + 1) hi) keep ;;
      Ok (keep, degree + 1)) lo hi (keep, 0) Hle) as ([k d] & E & Lk' & G & D).
  - cbn [fst snd]. split; [exact Lk|]. split; [|rewrite zfromto_nil by lia; reflexivity].
    intros x Hx. destruct (Z.leb_spec lo x), (Z.ltb_spec x hi); cbn [andb]; try reflexivity. rewrite K1 by lia.
    unfold seen. rewrite zfromto_nil by lia. reflexivity.
  - intros u [k d] Hu (Lk1 & G & D). cbn [fst snd] in *. rewrite (G u ltac:(lia)). destruct (Z.leb_spec lo u); [|lia]. destruct (Z.ltb_spec u hi); [|lia]. cbn [andb bind].
    assert (seen lo u u = again lo u) as Su by (unfold seen, again; rewrite Z.min_id; reflexivity).
    destruct (seen lo u u) eqn:Es; cbn [Z.eqb].
    + exists (k, d). split; [reflexivity|]. cbn [fst snd]. split; [exact Lk1|]. split.
      * intros x Hx. rewrite (G x Hx). destruct (Z.leb_spec lo x), (Z.ltb_spec x hi); cbn [andb]; try reflexivity.
        replace (seen lo (u + 1) x) with (seen lo u x); [reflexivity|]. apply seen_ext. rewrite !seen_true. split.
        -- intros (v & Hv & Ev). exists v. split; [lia|exact Ev].
        -- intros (v & Hv & Ev). destruct (Z.eq_dec v u) as [->|]; [|exists v; split; [lia|exact Ev]].
           apply seen_true in Es as (w & Hw & Ew). exists w. split; [lia|congruence].
      * rewrite zfromto_snoc by lia. rewrite filter_app, zlen_app. cbn [filter]. rewrite <- Su. cbn [negb]. rewrite zlen_nil. lia.
    + rewrite Rk by lia. cbn [bind]. destruct (strike k (rk u) (u + 1) hi ltac:(lia) Hh Lk1 ltac:(lia)) as (k' & Ek & Lk2 & Gk). rewrite Ek. cbn [bind].
      exists (k', d + 1). split; [reflexivity|]. cbn [fst snd]. split; [exact Lk2|]. split.
      * intros x Hx. rewrite (Gk x Hx), (G x Hx). destruct (Z.leb_spec lo x), (Z.ltb_spec x hi); cbn [andb];
          destruct (Z.leb_spec (u + 1) x); cbn [andb]; try reflexivity; try lia.
        -- destruct (Z.eqb_spec (rk x) (rk u)) as [Ex|Nx].
           ++ replace (seen lo (u + 1) x) with true; [reflexivity|]. symmetry. apply seen_true. exists u. split; [lia|congruence].
           ++ replace (seen lo (u + 1) x) with (seen lo u x); [reflexivity|]. apply seen_ext. rewrite !seen_true. split.
              ** intros (v & Hv & Ev). exists v. split; [lia|exact Ev].
              ** intros (v & Hv & Ev). exists v. split; [|exact Ev]. assert (v <> u) by congruence. lia.
        -- replace (seen lo (u + 1) x) with (seen lo u x); [reflexivity|]. unfold seen. rewrite !Z.min_r by lia. reflexivity.
      * rewrite zfromto_snoc by lia. rewrite filter_app, zlen_app. cbn [filter]. rewrite <- Su. cbn [negb]. change (zlen [u]) with 1. lia.
  - exists k, d. cbn [fst snd] in *. split; [exact E|]. split; [exact Lk'|]. split; [|exact D].
    intros x Hx. rewrite (G x Hx). destruct (Z.leb_spec lo x), (Z.ltb_spec x hi); cbn [andb]; try reflexivity. unfold seen, again. rewrite Z.min_r by lia. reflexivity.
Qed.

Lemma uniq_marks_ok f : is_fan f -> last_of f = Ok (zlen ranks) ->
  exists keep degrees, uniq_marks f ranks (zlen ranks) = Ok (keep, degrees) /\ zlen keep = zlen ranks /\ zlen degrees = zlen f - 1 /\
  (forall q lo hi x, zget f q = Ok lo -> zget f (q + 1) = Ok hi -> lo <= x < hi -> zget keep x = Ok (if again lo x then 0 else 1)) /\
  (forall q lo hi, zget f q = Ok lo -> zget f (q + 1) = Ok hi -> zget degrees q = Ok (zlen (filter (fun x => negb (again lo x)) (zfromto lo hi)))).
Proof.
  intros Ff Ll. destruct (fan_last f Ff) as (n0 & _ & _ & L1). unfold last_of in Ll. unfold uniq_marks.
  pose proof (zlen_nonneg ranks) as Nr.
  destruct (forM_invariant (fun q (st : list Z * list Z) => zlen (fst st) = zlen ranks /\ zlen (snd st) = q /\
     (forall b, zget f q = Ok b -> forall x, b <= x < zlen ranks -> zget (fst st) x = Ok 1) /\
     (forall q' lo hi x, q' < q -> zget f q' = Ok lo -> zget f (q' + 1) = Ok hi -> lo <= x < hi -> zget (fst st) x = Ok (if again lo x then 0 else 1)) /\
     (forall q' lo hi, q' < q -> zget f q' = Ok lo -> zget f (q' + 1) = Ok hi -> zget (snd st) q' = Ok (zlen (filter (fun x => negb (again lo x)) (zfromto lo hi)))))
    (zlen f - 1) (repeat 1 (Z.to_nat (zlen ranks)), [])
    (fun st old_owner =>
      let '(keep, degrees) := st in
      lo <- zget f old_owner ;; hi <- zget f (old_owner + 1) ;;
      '(keep, degree) <- uniq_kernel ranks lo hi keep ;;
      Ok (keep, degrees ++ [degree])) ltac:(lia)) as ([k d] & E & Lk & Ld & _ & Gk & Gd).
  - cbn [fst snd]. split; [rewrite zlen_repeat; lia|]. split; [reflexivity|]. split; [|split; [intros q' lo hi x Hq Hlo; apply zget_bounds in Hlo; lia|intros q' lo hi Hq Hlo; apply zget_bounds in Hlo; lia]].
    intros b Hb x Hx. pose proof (fan_nonneg _ _ _ Ff Hb). apply zget_ok. split; [lia|]. rewrite nth_error_repeat by lia. reflexivity.
  - intros q [k d] Hq (Lk & Ld & G1 & G2 & G3). cbn [fst snd] in *. destruct (zget_in_range f q ltac:(lia)) as (lo & Hlo). destruct (zget_in_range f (q + 1) ltac:(lia)) as (hi & Hhi).
    pose proof (fan_nonneg _ _ _ Ff Hlo) as B0. pose proof (fan_mono _ q (q + 1) _ _ Ff Hlo Hhi ltac:(lia)) as B1.
    pose proof (fan_mono _ (q + 1) (zlen f - 1) _ _ Ff Hhi Ll ltac:(lia)) as B2.
    rewrite Hlo. cbn [bind]. rewrite Hhi. cbn [bind].
    destruct (uniq_kernel_ok k lo hi B0 B1 B2 Lk) as (k' & dg & Ek & Lk' & Gk & Dg); [intros x Hx; apply (G1 lo Hlo); lia|].
    rewrite Ek. cbn [bind]. exists (k', d ++ [dg]). split; [reflexivity|]. cbn [fst snd]. split; [exact Lk'|]. split; [rewrite zlen_app, Ld; reflexivity|].
    split; [|split].
    + intros b Hb x Hx. assert (b = hi) as -> by congruence. rewrite Gk by lia. destruct (Z.leb_spec lo x), (Z.ltb_spec x hi); cbn [andb]; try lia. apply (G1 lo Hlo). lia.
    + intros q' lo' hi' x Hq' Hlo' Hhi' Hx. destruct (Z.eq_dec q' q) as [->|Nq].
      * assert (lo' = lo) as -> by congruence. assert (hi' = hi) as -> by congruence. rewrite Gk by lia. destruct (Z.leb_spec lo x), (Z.ltb_spec x hi); cbn [andb]; try lia. reflexivity.
      * pose proof (fan_mono _ (q' + 1) q _ _ Ff Hhi' Hlo ltac:(lia)) as B3. pose proof (fan_nonneg _ _ _ Ff Hlo') as B4. rewrite Gk by lia.
        destruct (Z.leb_spec lo x), (Z.ltb_spec x hi); cbn [andb]; try lia; apply (G2 q' lo' hi'); auto; lia.
    + intros q' lo' hi' Hq' Hlo' Hhi'. destruct (Z.eq_dec q' q) as [->|Nq].
      * assert (lo' = lo) as -> by congruence. assert (hi' = hi) as -> by congruence. rewrite zget_app_r by lia. rewrite Ld, Z.sub_diag, <- Dg. reflexivity.
      * pose proof (zget_bounds _ _ _ Hlo'). rewrite zget_app_l by lia. apply G3; auto. lia.
  - cbn [fst snd] in *. exists k, d. split; [exact E|]. split; [exact Lk|]. split; [exact Ld|]. split.
    + intros q lo hi x Hlo Hhi Hx. apply (Gk q lo hi x); auto. apply zget_bounds in Hhi. lia.
    + intros q lo hi Hlo Hhi. apply (Gd q lo hi); auto. apply zget_bounds in Hhi. lia.
Qed.

(** the chosen uses, and the fan over them *)
Lemma uniq_groups f keep degrees : is_fan f -> last_of f = Ok (zlen ranks) -> zlen keep = zlen ranks -> zlen degrees = zlen f - 1 ->
  (forall q lo hi x, zget f q = Ok lo -> zget f (q + 1) = Ok hi -> lo <= x < hi -> zget keep x = Ok (if again lo x then 0 else 1)) ->
  (forall q lo hi, zget f q = Ok lo -> zget f (q + 1) = Ok hi -> zget degrees q = Ok (zlen (filter (fun x => negb (again lo x)) (zfromto lo hi)))) ->
  exists us, collect_marked keep = Ok us /\ StronglySorted Z.lt us /\
  (forall x, In x us <-> exists q lo hi, zget f q = Ok lo /\ zget f (q + 1) = Ok hi /\ lo <= x < hi /\ again lo x = false) /\
  is_fan (offset_scan degrees) /\ zlen (offset_scan degrees) = zlen f /\ last_of (offset_scan degrees) = Ok (zlen us) /\
  forall c x q, zget us c = Ok x -> (in_group (offset_scan degrees) q c <-> in_group f q x).
Proof.
  intros Ff Ll Lk Ld Gk Gd.
  assert (forall x, 0 <= x < zlen ranks -> exists q lo hi, zget f q = Ok lo /\ zget f (q + 1) = Ok hi /\ lo <= x < hi) as Gr.
  { intros x Hx. destruct (in_group_exists f _ x Ff Ll Hx) as (q & lo & hi & H1 & H2 & H3). eauto 10. }
  assert (forall m, In m keep -> m = 0 \/ m = 1) as K01.
  { intros m Hm. apply In_zget in Hm as (x & Hx). destruct (Gr x) as (q & lo & hi & H1 & H2 & H3); [rewrite <- Lk; eapply zget_bounds; eauto|].
    rewrite (Gk q lo hi x H1 H2 H3) in Hx. injection Hx as <-. destruct (again lo x); auto. }
  exists (marked_indices keep). split; [apply collect_marked_spec; exact K01|]. split; [apply filter_sorted, zrange_sorted|]. split.
  { intros x. rewrite marked_indices_in. split.
    - intros (m & Hx & Hm). destruct (Gr x) as (q & lo & hi & H1 & H2 & H3); [rewrite <- Lk; eapply zget_bounds; eauto|].
      exists q, lo, hi. split; [exact H1|]. split; [exact H2|]. split; [exact H3|]. rewrite (Gk q lo hi x H1 H2 H3) in Hx. destruct (again lo x); [congruence|reflexivity].
    - intros (q & lo & hi & H1 & H2 & H3 & H4). exists 1. split; [|lia]. rewrite (Gk q lo hi x H1 H2 H3), H4. reflexivity. }
  assert (forall x, In x degrees -> 0 <= x) as Dn.
  { intros x Hx. apply In_zget in Hx as (q & Hq). pose proof (zget_bounds _ _ _ Hq). destruct (zget_in_range f q ltac:(lia)) as (lo & Hlo). destruct (zget_in_range f (q + 1) ltac:(lia)) as (hi & Hhi).
    rewrite (Gd q lo hi Hlo Hhi) in Hq. injection Hq as <-. apply zlen_nonneg. }
  split; [apply offset_scan_fan; exact Dn|]. split; [rewrite offset_scan_length; lia|].
  pose (P := fun i => match zget keep i with Ok m => negb (m =? 0) | _ => false end).
  pose (below := fun x => zlen (filter P (zrange x))).
  assert (forall lo hi, 0 <= lo <= hi -> below hi = below lo + zlen (filter P (zfromto lo hi))) as Bl.
  { intros lo hi H. unfold below. rewrite <- (zfromto_0 hi), <- (zfromto_0 lo), (zfromto_app 0 lo hi) by lia. rewrite filter_app, zlen_app. reflexivity. }
  assert (forall q lo, zget f q = Ok lo -> zget (offset_scan degrees) q = Ok (below lo)) as Off.
  { assert (forall n lo, zget f (Z.of_nat n) = Ok lo -> zget (offset_scan degrees) (Z.of_nat n) = Ok (below lo)) as H.
    { induction n as [|n IH]; intros hi Hhi.
      - change (Z.of_nat 0) with 0 in *. destruct Ff as (F0 & _). assert (hi = 0) as -> by congruence.
        rewrite offset_scan_get by (pose proof (zlen_nonneg degrees); lia). reflexivity.
      - pose proof (zget_bounds _ _ _ Hhi) as B. destruct (zget_in_range f (Z.of_nat n) ltac:(lia)) as (lo & Hlo). replace (Z.of_nat (S n)) with (Z.of_nat n + 1) in * by lia.
        destruct (offset_scan_step degrees (Z.of_nat n) _ (Gd _ _ _ Hlo Hhi)) as (o & O1 & O2). rewrite (IH lo Hlo) in O1. injection O1 as <-. rewrite O2. f_equal.
        pose proof (fan_mono _ _ _ _ _ Ff Hlo Hhi ltac:(lia)). pose proof (fan_nonneg _ _ _ Ff Hlo). rewrite (Bl lo hi) by lia. f_equal. f_equal.
        apply filter_ext_in. intros x Hx. apply in_zfromto in Hx. unfold P. rewrite (Gk _ lo hi x Hlo Hhi Hx). destruct (again lo x); reflexivity. }
    intros q lo Hlo. pose proof (zget_bounds _ _ _ Hlo). specialize (H (Z.to_nat q) lo). rewrite Z2Nat.id in H by lia. auto. }
  split.
  { unfold last_of in *. rewrite offset_scan_length. rewrite Ld. replace (zlen f - 1 + 1 - 1) with (zlen f - 1) by lia. rewrite (Off _ _ Ll). unfold marked_indices. rewrite Lk. reflexivity. }
  assert (forall c x, zget (marked_indices keep) c = Ok x -> 0 <= x < zlen ranks /\ P x = true /\ below x = c) as Pos.
  { intros c x Hc. pose proof (zget_In _ _ _ Hc) as Hi. unfold marked_indices in Hi. fold P in Hi. apply filter_In in Hi as [Hi Px]. apply in_zrange in Hi. rewrite Lk in Hi.
    split; [exact Hi|]. split; [exact Px|]. unfold marked_indices in Hc. fold P in Hc. rewrite Lk in Hc.
    assert (filter P (zrange (zlen ranks)) = filter P (zrange x) ++ x :: filter P (zfromto (x + 1) (zlen ranks))) as Es.
    { rewrite <- (zfromto_0 (zlen ranks)), (zfromto_app 0 x) by lia. rewrite (zfromto_cons x) by lia. rewrite filter_app, zfromto_0. cbn [filter]. rewrite Px. reflexivity. }
    assert (zget (filter P (zrange (zlen ranks))) (below x) = Ok x) as Hb.
    { rewrite Es. unfold below. rewrite zget_app_r by lia. rewrite Z.sub_diag. reflexivity. }
    eapply NoDup_zget; [apply NoDup_filter, zrange_NoDup|exact Hb|exact Hc]. }
  assert (forall x y, 0 <= x -> P x = true -> 0 <= y -> (below y <= below x <-> y <= x)) as Cmp.
  { intros x y Hx Px Hy. split; intros H.
    - destruct (Z.le_gt_cases y x) as [|G]; [assumption|exfalso]. rewrite (Bl x y) in H by lia. rewrite zfromto_cons in H by lia. cbn [filter] in H. rewrite Px, zlen_cons in H.
      pose proof (zlen_nonneg (filter P (zfromto (x + 1) y))). lia.
    - rewrite (Bl y x) by lia. pose proof (zlen_nonneg (filter P (zfromto y x))). lia. }
  intros c x q Hc. destruct (Pos c x Hc) as (Bx & Px & <-). split.
  - intros (a & b & H1 & H2 & H3). pose proof (zget_bounds _ _ _ H1) as Ba. pose proof (zget_bounds _ _ _ H2) as Bb. rewrite offset_scan_length in Ba, Bb.
    destruct (zget_in_range f q ltac:(lia)) as (lo & Hlo). destruct (zget_in_range f (q + 1) ltac:(lia)) as (hi & Hhi).
    rewrite (Off _ _ Hlo) in H1. injection H1 as <-. rewrite (Off _ _ Hhi) in H2. injection H2 as <-. exists lo, hi. split; [exact Hlo|]. split; [exact Hhi|].
    pose proof (fan_nonneg _ _ _ Ff Hlo). pose proof (fan_nonneg _ _ _ Ff Hhi). pose proof (Cmp x lo ltac:(lia) Px ltac:(lia)). pose proof (Cmp x hi ltac:(lia) Px ltac:(lia)). lia.
  - intros (lo & hi & H1 & H2 & H3). exists (below lo), (below hi). split; [apply Off; exact H1|]. split; [apply Off; exact H2|].
    pose proof (fan_nonneg _ _ _ Ff H1). pose proof (fan_nonneg _ _ _ Ff H2). pose proof (Cmp x lo ltac:(lia) Px ltac:(lia)). pose proof (Cmp x hi ltac:(lia) Px ltac:(lia)). lia.
Qed.
End uniq.
