(** Proofs for C85: the vertices of the children, and the counts. *)
From Coq Require Import Lia.
From Verif Require Import Prelude M_Array M_ArrayOps S_ArrayOps P_ArrayOps M_Map P_Array P_Map P_Map2 P_Align P_Bipart M_Graph S_Graph P_Graph P_Mark S_Scan M_Template P_Amr M_AmrTopo S_AmrTopo P_AmrTopo.
Local Open Scope Z_scope.

Definition template_fits : bool := forallb (fun d => forallb (fun cd => forallb (fun c => forallb (fun v =>
  let low := hypercube_split_template d cd c v in
  ((0 <=? fst low) && (fst low <=? d) && (0 <=? snd low) && (snd low <? hypercube_degree d (fst low)))%bool)
  (zrange (hypercube_degree cd 0))) (zrange (hypercube_split_degree d cd))) (zfromto 1 (d + 1))) [1; 2; 3].
Lemma template_fits_true : template_fits = true.
Proof. vm_compute. reflexivity. Qed.
Lemma template_ok d cd c v ld w : 1 <= cd <= d -> d <= 3 -> 0 <= c < hypercube_split_degree d cd -> 0 <= v < hypercube_degree cd 0 -> hypercube_split_template d cd c v = (ld, w) ->
  0 <= ld <= d /\ 0 <= w < hypercube_degree d ld.
Proof.
  intros H1 H2 H3 H4 E. pose proof template_fits_true as T. unfold template_fits in T. rewrite forallb_forall in T. specialize (T d).
  assert (I : In d [1; 2; 3]) by (cbn; lia). specialize (T I). rewrite forallb_forall in T. specialize (T cd). rewrite in_zfromto in T. specialize (T ltac:(lia)).
  rewrite forallb_forall in T. specialize (T c). rewrite in_zrange in T. specialize (T H3). rewrite forallb_forall in T. specialize (T v). rewrite in_zrange in T. specialize (T H4).
  rewrite E in T. cbn [fst snd] in T. lia.
Qed.
Lemma degrees d cd : 1 <= cd <= d -> d <= 3 -> 0 <= hypercube_split_degree d cd /\ 0 <= hypercube_degree cd 0.
Proof. intros H1 H2. assert (C : d = 1 \/ d = 2 \/ d = 3) by lia. assert (D : cd = 1 \/ cd = 2 \/ cd = 3) by lia. destruct C as [->|[->| ->]], D as [->|[->| ->]]; (split; vm_compute; discriminate) || lia. Qed.

Section vert.
Variable r : refining.
Hypothesis OK : refining_ok r.
Variable cd : Z.

Lemma refined_vert_cases d m md child vert : 1 <= cd <= d -> d <= r_dim r -> zget (r_mods2mds r d) m = Ok md -> 0 <= child < hypercube_split_degree d cd -> 0 <= vert < hypercube_degree cd 0 ->
  exists ld low, corner r d cd md child vert ld low /\
  ((exists v, refined_vert r d cd m child vert = Ok v /\ mid_vert r ld low v) \/
   (refined_vert r d cd m child vert = Abort /\ ~ In low (r_mods2mds r ld) /\ exists kids, targets (r_child_verts r ld) low = Ok kids /\ zlen kids <> 1)).
Proof.
  intros Hcd Hd Hm Hc Hv. pose proof (ro_dim r OK) as HD. destruct (hypercube_split_template d cd child vert) as [ld w] eqn:ET. destruct (template_ok _ _ _ _ _ _ Hcd ltac:(lia) Hc Hv ET) as [Hld Hw].
  pose proof (ro_mods r OK d md ltac:(lia) (zget_In _ _ _ Hm)) as Hmd. destruct (zget_in_range (r_lows r d ld) (md * hypercube_degree d ld + w)) as (low & El); [rewrite (ro_lows r OK) by lia; nia|].
  pose proof (ro_low r OK d ld low Hld Hd (zget_In _ _ _ El)) as Hlow. destruct (zget_in_range (r_mds2mods r ld) low Hlow) as (am & Ea).
  exists ld, low. split; [exists w; auto|]. unfold refined_vert. rewrite Hm. cbn [bind]. cbv zeta. rewrite ET. cbn [fst snd]. rewrite El. cbn [bind]. rewrite Ea. cbn [bind].
  destruct (ro_inv r OK ld low am ltac:(lia) Ea) as [[-> N]|[N Em]].
  - rewrite Z.eqb_refl. destruct (Z.eqb_spec ld 0) as [->|Nz].
    { exfalso. apply N. apply (ro_verts r OK d md w low); [lia|exact (zget_In _ _ _ Hm)|exact Hw|exact El]. }
    destruct (ro_kids r OK ld ltac:(lia)) as (W & NN & RK). destruct (wf_targets _ low W ltac:(lia)) as (ts & T). destruct (targets_split _ _ _ T) as (lo & hi & E1 & E2 & E3).
    rewrite E1, E2. cbn [bind]. destruct (Z.eqb_spec (hi - lo) 1) as [E|NE].
    + cbn [check bind]. assert (Eh : hi = lo + 1) by lia. subst hi. rewrite zfromto_snoc, zfromto_nil in E3 by lia. cbn [app mapM] in E3. apply bind_ok in E3 as (x & Ex & E3). cbn [bind] in E3. injection E3 as <-.
      rewrite Ex. cbn [bind]. destruct (zget_in_range (r_old_verts2new_verts r) x) as (v & Ev); [apply RK; exact (zget_In _ _ _ Ex)|]. left. exists v. split; [exact Ev|]. right. split; [exact N|]. exists x. auto.
    + right. split; [reflexivity|]. split; [exact N|]. exists ts. split; [exact T|]. unfold zlen. rewrite (mapM_length _ _ _ E3). change (Z.of_nat (length (zfromto lo hi))) with (zlen (zfromto lo hi)).
      destruct (Z_le_gt_dec lo hi) as [L|G]; [rewrite zlen_zfromto by lia; exact NE|]. rewrite zfromto_nil by lia. intros A. discriminate A.
  - destruct (Z.eqb_spec am (-1)); [contradiction|]. destruct (zget_in_range (r_mods2midverts r ld) am) as (v & Ev); [rewrite (ro_mids r OK) by lia; exact (zget_bounds _ _ _ Em)|].
    left. exists v. split; [exact Ev|]. left. exists am. auto.
Qed.

Lemma bchild_cases d m md child : 1 <= cd <= d -> d <= r_dim r -> zget (r_mods2mds r d) m = Ok md -> 0 <= child < hypercube_split_degree d cd ->
  (exists b, bchild r cd d m child = Ok b) \/ (bchild r cd d m child = Abort /\ stuck r cd).
Proof.
  intros H1 H2 H3 H4. unfold bchild. destruct (mapM_or_abort (refined_vert r d cd m child) (zrange (hypercube_degree cd 0))) as [R|[R (v & Hv & Ev)]].
  - intros v Hv. apply in_zrange in Hv. destruct (refined_vert_cases d m md child v H1 H2 H3 H4 Hv) as (ld & low & _ & [(x & E & _)|[E _]]); [left; eauto|right; exact E].
  - left. exact R.
  - right. split; [exact R|]. apply in_zrange in Hv. destruct (refined_vert_cases d m md child v H1 H2 H3 H4 Hv) as (ld & low & C & [(x & E & _)|[E (N & kids & T & L)]]); [congruence|].
    exists d, m, md, child, v, ld, low, kids. repeat (split; [assumption || lia|]). exact L.
Qed.
Lemma concat_cases (f : Z -> res (list Z)) k (P : Prop) : (forall i, 0 <= i < k -> (exists b, f i = Ok b) \/ (f i = Abort /\ P)) ->
  (exists b, (bs <- mapM f (zrange k) ;; Ok (concat bs)) = Ok b) \/ ((bs <- mapM f (zrange k) ;; Ok (concat bs)) = Abort /\ P).
Proof.
  intros H. destruct (mapM_or_abort f (zrange k)) as [(bs & R)|[R (i & Hi & Ei)]].
  - intros i Hi. apply in_zrange in Hi. destruct (H i Hi) as [A|[A _]]; auto.
  - rewrite R. left. eexists. reflexivity.
  - rewrite R. right. split; [reflexivity|]. apply in_zrange in Hi. destruct (H i Hi) as [(b & A)|[_ A]]; [congruence|exact A].
Qed.
Lemma bdim_cases d : 1 <= cd <= d -> d <= r_dim r -> (exists b, bdim r cd d = Ok b) \/ (bdim r cd d = Abort /\ stuck r cd).
Proof.
  intros H1 H2. apply concat_cases. intros m Hm. rewrite (ro_mids r OK) in Hm by lia. destruct (zget_in_range _ _ Hm) as (md & Em). apply concat_cases. intros c Hc. exact (bchild_cases d m md c H1 H2 Em Hc).
Qed.

Lemma in_blocks (f : Z -> res (list Z)) k n b i bi j : (forall i b, 0 <= i < n -> f i = Ok b -> zlen b = k) -> (bs <- mapM f (zrange n) ;; Ok (concat bs)) = Ok b -> 0 <= i < n -> f i = Ok bi -> 0 <= j < k ->
  zget b (i * k + j) = zget bi j.
Proof.
  intros H E Hi Ei Hj. apply bind_ok in E as (bs & Eb & E). injection E as <-. apply (zget_concat k); [exact (blocks_rows f k n bs H Eb)| |exact Hj].
  destruct (mapM_get _ _ _ i i Eb (zget_zrange n i Hi)) as (y & E1 & E2). congruence.
Qed.
Lemma block_of (f : Z -> res (list Z)) n b i : (bs <- mapM f (zrange n) ;; Ok (concat bs)) = Ok b -> 0 <= i < n -> exists bi, f i = Ok bi.
Proof. intros E Hi. apply bind_ok in E as (bs & Eb & _). destruct (mapM_in f _ _ i Eb) as (y & Ey & _); [apply in_zrange; exact Hi|]. eauto. Qed.

Lemma bdim_get d b m md child vert : 1 <= cd <= d -> d <= r_dim r -> bdim r cd d = Ok b -> zget (r_mods2mds r d) m = Ok md -> 0 <= child < hypercube_split_degree d cd -> 0 <= vert < hypercube_degree cd 0 ->
  exists v, refined_vert r d cd m child vert = Ok v /\ zget b ((m * hypercube_split_degree d cd + child) * hypercube_degree cd 0 + vert) = Ok v.
Proof.
  intros H1 H2 E Hm Hc Hv. pose proof (ro_dim r OK) as HD. destruct (degrees d cd H1 ltac:(lia)) as [P1 P2]. pose proof (zget_bounds _ _ _ Hm) as Bm. rewrite <- (ro_mids r OK) in Bm by lia. unfold bdim in E.
  destruct (block_of _ _ _ m E Bm) as (bm & Em). pose proof Em as Em'. unfold bmod in Em'. destruct (block_of _ _ _ child Em' Hc) as (bc & Ec). pose proof Ec as Ec'. unfold bchild in Ec'.
  destruct (mapM_get _ _ _ vert vert Ec' (zget_zrange _ _ Hv)) as (v & E1 & E2). exists v. split; [exact E1 || exact E2|].
  replace ((m * hypercube_split_degree d cd + child) * hypercube_degree cd 0 + vert) with (m * (hypercube_split_degree d cd * hypercube_degree cd 0) + (child * hypercube_degree cd 0 + vert)) by ring.
  rewrite (in_blocks _ (hypercube_split_degree d cd * hypercube_degree cd 0) _ b m bm _ (fun i x _ => bmod_len r cd d i x P2 P1) E Bm Em) by nia.
  rewrite (in_blocks _ (hypercube_degree cd 0) _ bm child bc vert (fun i x _ => bchild_len r cd d m i x P2) Em' Hc Ec Hv). exact E1 || exact E2.
Qed.
End vert.

Lemma sizes_products r cd lo hi : refining_ok r -> 0 <= lo -> hi <= r_dim r + 1 -> zsum (map (bsize r cd) (zfromto lo hi)) = products (r_mods2mds r) cd lo hi * hypercube_degree cd 0.
Proof.
  intros OK Hlo Hhi. unfold products. assert (H : forall d, In d (zfromto lo hi) -> zlen (r_mods2midverts r d) = zlen (r_mods2mds r d)).
  { intros d Hd. apply in_zfromto in Hd. apply (ro_mids r OK). lia. }
  induction (zfromto lo hi) as [|d l IH]; [reflexivity|]. cbn [map]. unfold zsum in *. cbn [fold_right]. rewrite IH by (intros x Hx; apply H; right; exact Hx). unfold bsize. rewrite (H d) by (left; reflexivity). ring.
Qed.

Lemma refined_topology_w : forall r child_dim num_children, refining_ok r -> 1 <= child_dim <= r_dim r -> num_children = products (r_mods2mds r) child_dim child_dim (r_dim r + 1) ->
  (get_refined_topology r child_dim num_children = Abort /\ stuck r child_dim) \/
  (~ stuck r child_dim /\ exists out, get_refined_topology r child_dim num_children = Ok out /\ zlen out = num_children * hypercube_degree child_dim 0 /\
   forall d mod_ md child vert, child_dim <= d <= r_dim r -> zget (r_mods2mds r d) mod_ = Ok md -> 0 <= child < hypercube_split_degree d child_dim -> 0 <= vert < hypercube_degree child_dim 0 ->
   exists ld low v, corner r d child_dim md child vert ld low /\ mid_vert r ld low v /\
     zget out ((products (r_mods2mds r) child_dim child_dim d + mod_ * hypercube_split_degree d child_dim + child) * hypercube_degree child_dim 0 + vert) = Ok v).
Proof.
  intros r cd nc OK Hcd ->. pose proof (ro_dim r OK) as HD. set (nv := hypercube_degree cd 0) in *. set (l := zfromto cd (r_dim r + 1)).
  assert (Hl : forall d, In d l -> 1 <= cd <= d /\ d <= r_dim r) by (intros d Hd; apply in_zfromto in Hd; lia).
  assert (Hn : forall d, In d l -> 0 <= hypercube_split_degree d cd) by (intros d Hd; apply Hl in Hd as [A B]; apply degrees; lia).
  assert (Hv : 0 <= nv) by (apply (degrees cd cd); lia).
  pose proof (sizes_products r cd cd (r_dim r + 1) OK ltac:(lia) ltac:(lia)) as HS. fold l nv in HS.
  assert (Hp : 0 <= zsum (map (bsize r cd) l)).
  { clear HS. revert Hn. clear - Hv. induction l as [|a l IH]; intros Hn; [cbn; lia|]. change (zsum (map (bsize r cd) (a :: l))) with (bsize r cd a + zsum (map (bsize r cd) l)). specialize (IH (fun d Hd => Hn d (or_intror Hd))).
    pose proof (Hn a (or_introl eq_refl)). unfold bsize at 1. pose proof (zlen_nonneg (r_mods2midverts r a)). fold nv. nia. }
  assert (EQ : get_refined_topology r cd (products (r_mods2mds r) cd cd (r_dim r + 1)) = (bs <- mapM (bdim r cd) l ;; Ok (concat bs))).
  { unfold get_refined_topology. cbv zeta. fold nv. rewrite <- HS, blank_ok by exact Hp. cbn [bind]. fold l.
    pose proof (dims_loop r cd Hv l Hn [] (repeat None (Z.to_nat (zsum (map (bsize r cd) l))))) as DL. cbv zeta in DL. change (map Some (@nil Z) ++ ?x) with x in DL. change (zlen (@nil Z)) with 0 in DL. fold nv in DL. rewrite DL by (rewrite zlen_repeat; lia).
    destruct (mapM (bdim r cd) l) as [bs| |]; [|reflexivity..]. cbn [bind fst app]. apply freeze_ok. rewrite skipn_all2 by (rewrite repeat_length; lia). rewrite app_nil_r. reflexivity. }
  rewrite EQ. destruct (mapM_or_abort (bdim r cd) l) as [(bs & E)|[E (d & Hd & Ed)]].
  - intros d Hd. destruct (Hl d Hd) as [A B]. destruct (bdim_cases r OK cd d A B) as [Q|[Q _]]; auto.
  - right. rewrite E. cbn [bind].
    assert (G : forall d mod_ md child vert, cd <= d <= r_dim r -> zget (r_mods2mds r d) mod_ = Ok md -> 0 <= child < hypercube_split_degree d cd -> 0 <= vert < nv ->
      exists ld low v, corner r d cd md child vert ld low /\ mid_vert r ld low v /\ zget (concat bs) ((products (r_mods2mds r) cd cd d + mod_ * hypercube_split_degree d cd + child) * nv + vert) = Ok v).
    { intros d m md child vert Hd Hm Hc Hvv. unfold l in E. rewrite (zfromto_app cd d (r_dim r + 1)), (zfromto_cons d) in E by lia. rewrite mapM_app in E. apply bind_ok in E as (b1 & E1 & E). apply bind_ok in E as (b2 & E2 & E). injection E as <-.
      cbn [mapM] in E2. apply bind_ok in E2 as (b & Eb & E2). apply bind_ok in E2 as (b3 & E3 & E2). injection E2 as <-.
      destruct (refined_vert_cases r OK cd d m md child vert ltac:(lia) ltac:(lia) Hm Hc Hvv) as (ld & low & C & K). destruct (bdim_get r OK cd d b m md child vert ltac:(lia) ltac:(lia) Eb Hm Hc Hvv) as (v & V1 & V2). fold nv in V2.
      destruct K as [(v' & V3 & MV)|[K _]]; [|congruence]. assert (v' = v) as -> by congruence. exists ld, low, v. split; [exact C|]. split; [exact MV|].
      assert (L1 : zlen (concat b1) = products (r_mods2mds r) cd cd d * nv).
      { unfold nv. rewrite <- (sizes_products r cd cd d OK) by lia. fold l in Hn. assert (Hn' : forall x, In x (zfromto cd d) -> 0 <= hypercube_split_degree x cd) by (intros x Hx; apply Hn; apply in_zfromto; apply in_zfromto in Hx; lia).
        clear - E1 Hn' Hv. revert b1 E1. induction (zfromto cd d) as [|x t IH]; intros b1 E1; [injection E1 as <-; reflexivity|]. cbn [mapM] in E1. apply bind_ok in E1 as (y & Ey & E1). apply bind_ok in E1 as (ys & Eys & E1). injection E1 as <-.
        change (zsum (map (bsize r cd) (x :: t))) with (bsize r cd x + zsum (map (bsize r cd) t)). cbn [concat]. rewrite zlen_app, (IH (fun z Hz => Hn' z (or_intror Hz)) ys Eys). f_equal. apply bdim_len; [exact Hv|apply Hn'; left; reflexivity|exact Ey]. }
      rewrite concat_app. cbn [concat]. pose proof (zget_bounds _ _ _ V2) as BV.
      replace ((products (r_mods2mds r) cd cd d + m * hypercube_split_degree d cd + child) * nv + vert) with (zlen (concat b1) + ((m * hypercube_split_degree d cd + child) * nv + vert)) by (rewrite L1; ring).
      rewrite zget_app_r by lia. rewrite Z.add_simpl_l, zget_app_l by lia. exact V2. }
    split.
    { intros (d & m & md & child & vert & ld & low & kids & A1 & A2 & A3 & A4 & (w & C1 & C2) & A6 & A7 & A8). destruct (G d m md child vert A1 A2 A3 A4) as (ld' & low' & v & (w' & C3 & C4) & MV & _).
      rewrite C1 in C3. injection C3 as <- <-. assert (low' = low) as -> by congruence. destruct MV as [(x & X1 & _)|(_ & old & X1 & _)]; [exact (A6 (zget_In _ _ _ X1))|]. rewrite X1 in A7. injection A7 as <-. exact (A8 eq_refl). }
    exists (concat bs). split; [reflexivity|]. split; [|exact G].
    rewrite <- HS. clear - E Hn Hv. revert bs E. induction l as [|x t IH]; intros b1 E1; [injection E1 as <-; reflexivity|]. cbn [mapM] in E1. apply bind_ok in E1 as (y & Ey & E1). apply bind_ok in E1 as (ys & Eys & E1). injection E1 as <-.
    change (zsum (map (bsize r cd) (x :: t))) with (bsize r cd x + zsum (map (bsize r cd) t)). cbn [concat]. rewrite zlen_app, (IH (fun z Hz => Hn z (or_intror Hz)) ys Eys). f_equal. apply bdim_len; [exact Hv|apply Hn; left; reflexivity|exact Ey].
  - left. rewrite E. split; [reflexivity|]. destruct (Hl d Hd) as [A B]. destruct (bdim_cases r OK cd d A B) as [(b & Q)|[_ Q]]; [congruence|exact Q].
Qed.

(** ** Counts *)
Lemma sum_marked m : (forall x, In x m -> x = 0 \/ x = 1) -> fold_right Z.add 0 m = zlen (filter (fun x => negb (x =? 0)) m) /\ zsum_abs m = zlen (filter (fun x => negb (x =? 0)) m).
Proof.
  induction m as [|x m IH]; intros H; [split; reflexivity|]. destruct (IH (fun y Hy => H y (or_intror Hy))) as [A B]. cbn [fold_right filter]. unfold zsum_abs in *. cbn [fold_right]. rewrite A, B.
  destruct (H x (or_introl eq_refl)) as [->| ->]; cbn [Z.eqb negb Z.abs]; [split; reflexivity|]. rewrite zlen_cons. split; lia.
Qed.
Lemma add_fits a b : 0 <= a -> 0 <= b -> a + b <= 2 ^ 31 - 1 -> add_ck (2 ^ 31 - 1) a b = Ok (a + b).
Proof. intros. unfold add_ck. destruct (Z.leb_spec (- (2 ^ 31 - 1) - 1) (a + b)), (Z.leb_spec (a + b) (2 ^ 31 - 1)); cbn [andb]; (reflexivity || lia). Qed.

Lemma four_0 (x y z w : Z) : zget [x; y; z; w] 0 = Ok x. Proof. reflexivity. Qed.
Lemma four_1 (x y z w : Z) : zget [x; y; z; w] 1 = Ok y. Proof. reflexivity. Qed.
Lemma four_2 (x y z w : Z) : zget [x; y; z; w] 2 = Ok z. Proof. reflexivity. Qed.
Lemma four_3 (x y z w : Z) : zget [x; y; z; w] 3 = Ok w. Proof. reflexivity. Qed.
Lemma put_0 (x y z w v : Z) : zset [x; y; z; w] 0 v = Ok [v; y; z; w]. Proof. reflexivity. Qed.
Lemma put_1 (x y z w v : Z) : zset [x; y; z; w] 1 v = Ok [x; v; z; w]. Proof. reflexivity. Qed.
Lemma put_2 (x y z w v : Z) : zset [x; y; z; w] 2 v = Ok [x; y; v; w]. Proof. reflexivity. Qed.
Lemma put_3 (x y z w v : Z) : zset [x; y; z; w] 3 v = Ok [x; y; z; v]. Proof. reflexivity. Qed.
Ltac fours := first [rewrite four_0|rewrite four_1|rewrite four_2|rewrite four_3].
Ltac degree i j := let x := eval vm_compute in (hypercube_split_degree i j) in change (hypercube_split_degree i j) with x.
Ltac steps G := cbv zeta; repeat (try rewrite G; cbn [bind]; fours; cbn [bind];
  try degree 1 0; try degree 1 1; try degree 2 0; try degree 2 1; try degree 2 2; try degree 3 0; try degree 3 1; try degree 3 2; try degree 3 3;
  rewrite add_fits by lia; cbn [bind]; first [rewrite put_0|rewrite put_1|rewrite put_2|rewrite put_3]; cbn [bind]).

Lemma count_refined_w : forall b dim refine mods, 1 <= dim <= 3 -> (forall i, 1 <= i <= dim -> covers b (zlen (refine i))) ->
  (forall i x, 1 <= i <= dim -> In x (refine i) -> x = 0 \/ x = 1) -> (forall i, 1 <= i <= dim -> collect_marked (refine i) = Ok (mods i)) ->
  (forall j, 0 <= j <= dim -> products mods j (Z.max 1 j) (dim + 1) < 2 ^ 31) ->
  exists counts, count_refined b dim refine = Ok counts /\ forall j, 0 <= j <= 3 -> zget counts j = Ok (products mods j (Z.max 1 j) (dim + 1)).
Proof.
  intros b dim refine mods Hd Hc Hx Hm Hp.
  assert (L : forall i, 1 <= i <= dim -> zlen (mods i) = zlen (filter (fun x => negb (x =? 0)) (refine i))).
  { intros i Hi. specialize (Hm i Hi). rewrite collect_marked_spec in Hm by (intros m; apply Hx; exact Hi). injection Hm as <-. apply marked_number. }
  assert (B : forall i, 1 <= i <= dim -> 0 <= zlen (mods i) < 2 ^ 31).
  { intros i Hi. split; [apply zlen_nonneg|]. specialize (Hp i ltac:(lia)). rewrite Z.max_r in Hp by lia. unfold products in Hp. rewrite zfromto_cons in Hp by lia. cbn [map] in Hp. unfold zsum in Hp. cbn [fold_right] in Hp.
    assert (S : forall l, (forall k, In k l -> i <= k <= 3) -> 0 <= fold_right Z.add 0 (map (fun i0 => zlen (mods i0) * hypercube_split_degree i0 i) l)).
    { induction l as [|k l IH]; intros Hk; [cbn; lia|]. cbn [map fold_right]. specialize (IH (fun z Hz => Hk z (or_intror Hz))). pose proof (Hk k (or_introl eq_refl)). destruct (degrees k i ltac:(lia) ltac:(lia)) as [Q _]. pose proof (zlen_nonneg (mods k)). nia. }
    specialize (S (zfromto (i + 1) (dim + 1))). assert (Q : forall k, In k (zfromto (i + 1) (dim + 1)) -> i <= k <= 3) by (intros k Hk; apply in_zfromto in Hk; lia). specialize (S Q).
    assert (1 <= hypercube_split_degree i i) by (assert (C : i = 1 \/ i = 2 \/ i = 3) by lia; destruct C as [->|[->| ->]]; vm_compute; discriminate). pose proof (zlen_nonneg (mods i)). nia. }
  assert (G : forall i, 1 <= i <= dim -> get_sum b (2 ^ 31 - 1) (refine i) = Ok (zlen (mods i))).
  { intros i Hi. destruct (sum_marked (refine i) (fun x => Hx i x Hi)) as [A1 A2]. specialize (L i Hi). specialize (B i Hi). rewrite get_sum_spec; [rewrite A1, L; reflexivity|apply Hc; exact Hi|lia]. }
  assert (C : dim = 1 \/ dim = 2 \/ dim = 3) by lia. unfold count_refined.
  destruct C as [->|[->| ->]].
  - pose proof (B 1 ltac:(lia)) as B1. pose proof (G 1 ltac:(lia)) as G1.
    pose proof (Hp 0 ltac:(lia)) as Q0. pose proof (Hp 1 ltac:(lia)) as Q1.
    exists [zlen (mods 1); 2 * zlen (mods 1); 0; 0].
    change (products mods 0 (Z.max 1 0) (1 + 1)) with (zlen (mods 1) * 1 + 0) in Q0. change (products mods 1 (Z.max 1 1) (1 + 1)) with (zlen (mods 1) * 2 + 0) in Q1.
    split.
    + change (zfromto 1 (1 + 1)) with [1]. cbn [foldM]. change (zfromto 0 (1 + 1)) with [0; 1]. cbn [foldM]. steps G1. cbn [bind]. repeat (f_equal; try lia).
    + intros j Hj. assert (J : j = 0 \/ j = 1 \/ j = 2 \/ j = 3) by lia. destruct J as [->|[->|[->| ->]]]; fours.
      * change (products mods 0 (Z.max 1 0) (1 + 1)) with (zlen (mods 1) * 1 + 0). f_equal. lia.
      * change (products mods 1 (Z.max 1 1) (1 + 1)) with (zlen (mods 1) * 2 + 0). f_equal. lia.
      * reflexivity.
      * reflexivity.
  - pose proof (B 1 ltac:(lia)) as B1. pose proof (G 1 ltac:(lia)) as G1. pose proof (B 2 ltac:(lia)) as B2. pose proof (G 2 ltac:(lia)) as G2.
    pose proof (Hp 0 ltac:(lia)) as Q0. pose proof (Hp 1 ltac:(lia)) as Q1. pose proof (Hp 2 ltac:(lia)) as Q2.
    exists [zlen (mods 1) + zlen (mods 2); 2 * zlen (mods 1) + 4 * zlen (mods 2); 4 * zlen (mods 2); 0].
    change (products mods 0 (Z.max 1 0) (2 + 1)) with (zlen (mods 1) * 1 + (zlen (mods 2) * 1 + 0)) in *. change (products mods 1 (Z.max 1 1) (2 + 1)) with (zlen (mods 1) * 2 + (zlen (mods 2) * 4 + 0)) in *.
    change (products mods 2 (Z.max 1 2) (2 + 1)) with (zlen (mods 2) * 4 + 0) in *.
    split.
    + change (zfromto 1 (2 + 1)) with [1; 2]. cbn [foldM]. change (zfromto 0 (1 + 1)) with [0; 1]. change (zfromto 0 (2 + 1)) with [0; 1; 2]. cbn [foldM]. steps G1. cbn [bind]. steps G2. cbn [bind]. repeat (f_equal; try lia).
    + intros j Hj. assert (J : j = 0 \/ j = 1 \/ j = 2 \/ j = 3) by lia. destruct J as [->|[->|[->| ->]]]; fours.
      * change (products mods 0 (Z.max 1 0) (2 + 1)) with (zlen (mods 1) * 1 + (zlen (mods 2) * 1 + 0)). f_equal. lia.
      * change (products mods 1 (Z.max 1 1) (2 + 1)) with (zlen (mods 1) * 2 + (zlen (mods 2) * 4 + 0)). f_equal. lia.
      * change (products mods 2 (Z.max 1 2) (2 + 1)) with (zlen (mods 2) * 4 + 0). f_equal. lia.
      * reflexivity.
  - pose proof (B 1 ltac:(lia)) as B1. pose proof (G 1 ltac:(lia)) as G1. pose proof (B 2 ltac:(lia)) as B2. pose proof (G 2 ltac:(lia)) as G2. pose proof (B 3 ltac:(lia)) as B3. pose proof (G 3 ltac:(lia)) as G3.
    pose proof (Hp 0 ltac:(lia)) as Q0. pose proof (Hp 1 ltac:(lia)) as Q1. pose proof (Hp 2 ltac:(lia)) as Q2. pose proof (Hp 3 ltac:(lia)) as Q3.
    exists [zlen (mods 1) + zlen (mods 2) + zlen (mods 3); 2 * zlen (mods 1) + 4 * zlen (mods 2) + 6 * zlen (mods 3); 4 * zlen (mods 2) + 12 * zlen (mods 3); 8 * zlen (mods 3)].
    change (products mods 0 (Z.max 1 0) (3 + 1)) with (zlen (mods 1) * 1 + (zlen (mods 2) * 1 + (zlen (mods 3) * 1 + 0))) in *.
    change (products mods 1 (Z.max 1 1) (3 + 1)) with (zlen (mods 1) * 2 + (zlen (mods 2) * 4 + (zlen (mods 3) * 6 + 0))) in *.
    change (products mods 2 (Z.max 1 2) (3 + 1)) with (zlen (mods 2) * 4 + (zlen (mods 3) * 12 + 0)) in *.
    change (products mods 3 (Z.max 1 3) (3 + 1)) with (zlen (mods 3) * 8 + 0) in *.
    split.
    + change (zfromto 1 (3 + 1)) with [1; 2; 3]. cbn [foldM]. change (zfromto 0 (1 + 1)) with [0; 1]. change (zfromto 0 (2 + 1)) with [0; 1; 2]. change (zfromto 0 (3 + 1)) with [0; 1; 2; 3]. cbn [foldM].
      steps G1. cbn [bind]. steps G2. cbn [bind]. steps G3. cbn [bind]. repeat (f_equal; try lia).
    + intros j Hj. assert (J : j = 0 \/ j = 1 \/ j = 2 \/ j = 3) by lia. destruct J as [->|[->|[->| ->]]]; fours.
      * change (products mods 0 (Z.max 1 0) (3 + 1)) with (zlen (mods 1) * 1 + (zlen (mods 2) * 1 + (zlen (mods 3) * 1 + 0))). f_equal. lia.
      * change (products mods 1 (Z.max 1 1) (3 + 1)) with (zlen (mods 1) * 2 + (zlen (mods 2) * 4 + (zlen (mods 3) * 6 + 0))). f_equal. lia.
      * change (products mods 2 (Z.max 1 2) (3 + 1)) with (zlen (mods 2) * 4 + (zlen (mods 3) * 12 + 0)). f_equal. lia.
      * change (products mods 3 (Z.max 1 3) (3 + 1)) with (zlen (mods 3) * 8 + 0). f_equal. lia.
Qed.

Lemma one_vertex_w : forall r ld low v v', refining_ok r -> 0 <= ld <= r_dim r -> mid_vert r ld low v -> mid_vert r ld low v' -> v = v'.
Proof.
  intros r ld low v v' OK Hd [(m & E1 & E2)|(N & o & E1 & E2)] [(m' & E3 & E4)|(N' & o' & E3 & E4)].
  - assert (m = m') as <-; [|congruence]. pose proof (ro_distinct r OK ld Hd) as D. apply zget_ok in E1 as [A1 B1]. apply zget_ok in E3 as [A3 B3].
    rewrite NoDup_nth_error in D. specialize (D (Z.to_nat m) (Z.to_nat m')). rewrite B1, B3 in D. unfold zlen in A1. specialize (D ltac:(apply nth_error_Some; congruence) eq_refl). lia.
  - exfalso. exact (N' (zget_In _ _ _ E1)).
  - exfalso. exact (N (zget_In _ _ _ E3)).
  - rewrite E1 in E3. injection E3 as <-. congruence.
Qed.

Lemma numbered_w : forall marks, (forall x, In x marks -> x = 0 \/ x = 1) ->
  exists mods inv, collect_marked marks = Ok mods /\ invert_injective_map mods (zlen marks) = Ok inv /\ NoDup mods /\ zlen inv = zlen marks /\
  (forall md, In md mods <-> zget marks md = Ok 1) /\ (forall md, In md mods -> 0 <= md < zlen inv) /\
  forall e m, zget inv e = Ok m -> (m = -1 /\ ~ In e mods) \/ (m <> -1 /\ zget mods m = Ok e).
Proof.
  intros marks H. pose proof (collect_marked_spec marks H) as E. destruct (collect_marked_full marks H) as (r & E' & _ & I). rewrite E in E'. injection E' as <-.
  assert (R : forall b, In b (marked_indices marks) -> 0 <= b < zlen marks) by (intros b Hb; apply I in Hb; exact (zget_bounds _ _ _ Hb)).
  destruct (invert_injective_map_spec _ (zlen marks) (zlen_nonneg marks) (marked_NoDup marks) R) as (inv & Ei & L & G & F).
  exists (marked_indices marks), inv. split; [exact E|]. split; [exact Ei|]. split; [apply marked_NoDup|]. split; [exact L|]. split; [exact I|]. split; [rewrite L; exact R|].
  intros e m Em. destruct (in_dec Z.eq_dec e (marked_indices marks)) as [Y|N].
  - right. apply In_zget in Y as (a & Ea). specialize (G a e Ea). assert (a = m) as <- by congruence. split; [|exact Ea]. apply zget_bounds in Ea. lia.
  - left. split; [|exact N]. rewrite F in Em; [congruence| |exact N]. apply zget_bounds in Em. lia.
Qed.
