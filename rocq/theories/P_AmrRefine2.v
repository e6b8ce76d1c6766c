(** Proofs for C87, continued: refining as a whole. *)
From Coq Require Import Lia.
From Verif Require Import Prelude M_Array M_ArrayOps S_ArrayOps M_Par M_Scan S_Scan M_Sort M_Map S_Map M_Align M_Graph S_Graph M_Adj S_Adj M_Parents M_Template P_Array P_Map P_Map2 P_Align P_Graph P_Mark P_Amr M_Modify S_Modify P_Modify P_Modify2 M_AmrTopo S_AmrTopo P_AmrTopo P_AmrTopo2 M_AmrTransfer S_AmrTransfer P_AmrTransfer P_AmrTransfer2 P_AmrTransfer3 M_AmrRefine S_AmrRefine P_AmrRefine.
Local Open Scope Z_scope.

Lemma zget_S {A} (x : A) l i : 1 <= i -> zget (x :: l) i = zget l (i - 1).
Proof.
  intros H. unfold zget. destruct (Z.ltb_spec i 0); [lia|]. destruct (Z.ltb_spec (i - 1) 0); [lia|]. replace (Z.to_nat i) with (S (Z.to_nat (i - 1))) by lia. reflexivity.
Qed.
Lemma zget_zfromto lo hi i : 0 <= i < hi - lo -> zget (zfromto lo hi) i = Ok (lo + i).
Proof. intros H. unfold zfromto. rewrite zget_map, zget_zrange by exact H. reflexivity. Qed.
Lemma by_dim_get {A B} (f : A -> list B) l d x : zget l d = Ok x -> by_dim f l d = f x.
Proof. intros H. unfold by_dim. rewrite H. reflexivity. Qed.

Section whole.
Variable b : backend.
Variable o : old_mesh.
Hypothesis RF : refinable b o.
Let ms := o_ms o.
Let dim := mesh_dim ms.

Lemma dim_ok : 1 <= dim <= 3.
Proof. pose proof (rf_dim b o RF). destruct (rf_consistent b o RF) as (H2 & _). unfold dim, ms in *. lia. Qed.

Lemma mods_exist : exists mods_l inv_l, mapM (fun d => collect_marked (o_marks o d)) (zrange (dim + 1)) = Ok mods_l /\
  mapM (fun d => mods2mds <- zget mods_l d ;; invert_injective_map mods2mds (nents ms d)) (zrange (dim + 1)) = Ok inv_l /\
  forall d, 0 <= d <= dim -> collect_marked (o_marks o d) = Ok (by_dim (fun l => l) mods_l d) /\ NoDup (by_dim (fun l => l) mods_l d) /\ zlen (by_dim (fun l => l) inv_l d) = nents ms d /\
  (forall md, In md (by_dim (fun l => l) mods_l d) <-> zget (o_marks o d) md = Ok 1) /\ (forall md, In md (by_dim (fun l => l) mods_l d) -> 0 <= md < nents ms d) /\
  forall e m, zget (by_dim (fun l => l) inv_l d) e = Ok m -> (m = -1 /\ ~ In e (by_dim (fun l => l) mods_l d)) \/ (m <> -1 /\ zget (by_dim (fun l => l) mods_l d) m = Ok e).
Proof.
  pose proof dim_ok as HD.
  assert (K : forall d, 0 <= d <= dim -> exists mods inv, collect_marked (o_marks o d) = Ok mods /\ invert_injective_map mods (nents ms d) = Ok inv /\ NoDup mods /\ zlen inv = nents ms d /\
    (forall md, In md mods <-> zget (o_marks o d) md = Ok 1) /\ (forall md, In md mods -> 0 <= md < nents ms d) /\ forall e m, zget inv e = Ok m -> (m = -1 /\ ~ In e mods) \/ (m <> -1 /\ zget mods m = Ok e)).
  { intros d Hd. destruct (rf_marks b o RF d Hd) as (L & X). destruct (numbered_w (o_marks o d) X) as (mods & inv & A1 & A2 & A3 & A4 & A5 & A6 & A7). rewrite A4 in A6. fold ms in L. rewrite L in A2, A4, A6. exists mods, inv. auto 10. }
  destruct (tab_total (dim + 1) (fun d => collect_marked (o_marks o d))) as (mods_l & E1 & L1 & G1); [lia|intros d Hd; destruct (K d ltac:(lia)) as (m & _ & A & _); eauto|].
  destruct (tab_total (dim + 1) (fun d => mods2mds <- zget mods_l d ;; invert_injective_map mods2mds (nents ms d))) as (inv_l & E2 & L2 & G2); [lia|intros d Hd; destruct (K d ltac:(lia)) as (m & i & A & B & _); rewrite G1 by exact Hd; rewrite A; cbn [bind]; eauto|].
  exists mods_l, inv_l. split; [exact E1|]. split; [exact E2|]. intros d Hd. destruct (K d Hd) as (m & i & A & B & C & D & E & F & G). specialize (G1 d ltac:(lia)). specialize (G2 d ltac:(lia)). rewrite A in G1. rewrite G1 in G2. cbn [bind] in G2. rewrite B in G2. rewrite (by_dim_get _ _ _ _ G1), (by_dim_get _ _ _ _ G2). auto 10.
Qed.

Section given.
Variables mods inv : Z -> list Z.
Hypothesis FM : forall d, 0 <= d <= dim -> collect_marked (o_marks o d) = Ok (mods d) /\ NoDup (mods d) /\ zlen (inv d) = nents ms d /\
  (forall md, In md (mods d) <-> zget (o_marks o d) md = Ok 1) /\ (forall md, In md (mods d) -> 0 <= md < nents ms d) /\
  forall e m, zget (inv d) e = Ok m -> (m = -1 /\ ~ In e (mods d)) \/ (m <> -1 /\ zget (mods d) m = Ok e).

Lemma are_marked_g : are_marked o mods.
Proof. intros d Hd. destruct (FM d Hd) as (_ & A & _ & B & _). split; [exact A|exact B]. Qed.
Lemma chosen_g : chosen ms mods.
Proof. intros d Hd. destruct (FM d Hd) as (_ & A & _ & _ & B & _). split; [exact A|exact B]. Qed.
Lemma refine_old_g : refine_old dim mods (nents ms).
Proof. intros d md Hd H. destruct (FM d ltac:(lia)) as (_ & _ & _ & _ & B & _). apply B, H. Qed.

Definition num_ok (pd : Z) (r : numbering) : Prop :=
  new_numbers dim pd mods (prods2new r) (same2old r) (same2new r) (nents ms pd) (nnew r) /\
  renumbers (same2old r) (same2new r) (old2new r) /\ zlen (old2new r) = nents ms pd /\ NoDup (same2old r) /\
  (forall x, 0 <= x < nents ms pd -> In x (same2old r)) /\
  (forall e, 0 <= e < nnew r -> (exists x, same_as (same2old r) (same2new r) e x) \/ (exists d md p, made_of dim pd mods (prods2new r) e d md p)).
Lemma num_exists pd : 0 <= pd <= dim -> exists r, refine_numbers ms pd mods (o_marks o) = Ok r /\ num_ok pd r.
Proof.
  intros H. pose proof dim_ok. destruct (refine_numbers_w ms pd mods (o_marks o) (rf_consistent b o RF) (rf_dim b o RF) H chosen_g) as (mp & r & _ & E & _ & _ & A). exists r. split; [exact E|exact A].
Qed.
Lemma same_exists pd r x : num_ok pd r -> 0 <= x < nents ms pd -> exists e, same_as (same2old r) (same2new r) e x.
Proof.
  intros (A & _ & _ & _ & B & _) H. specialize (B x H). apply In_zget in B as (s & Hs). destruct (zget_in_range (same2new r) s) as (e & He); [rewrite <- (nu_same _ _ _ _ _ _ _ _ A); eapply zget_bounds; exact Hs|]. exists e, s. auto.
Qed.

Section verts.
Variable vnum : numbering.
Hypothesis VN : num_ok 0 vnum.
Variable mids : few.
Hypothesis M0 : exists l, zget mids 0 = Ok (Some l) /\ zlen l = zlen (mods 0) /\ forall m v, zget (mods 0) m = Ok v -> zget l m = zget (old2new vnum) v.
Hypothesis M1 : forall d, 1 <= d <= dim -> exists l, zget mids d = Ok (Some l) /\ zlen l = zlen (mods d) /\ forall m, 0 <= m < zlen (mods d) -> zget l m = zget (prods2new vnum) (products mods 0 1 d + m).
Let r := {| r_dim := dim; r_mods2mds := mods; r_mds2mods := inv; r_mods2midverts := by_dim some_of mids; r_lows := lows ms; r_child_verts := o_kids o; r_old_verts2new_verts := old2new vnum |}.

Lemma hdd d : 0 <= d <= 3 -> hypercube_degree d d = 1.
Proof. intros H. assert (C : d = 0 \/ d = 1 \/ d = 2 \/ d = 3) by lia. destruct C as [->|[->|[->| ->]]]; reflexivity. Qed.
Lemma refining_g : refining_ok r.
Proof.
  pose proof dim_ok as HD. destruct (rf_consistent b o RF) as (_ & C1 & C2). fold ms in C1, C2. fold dim in C1, C2.
  constructor; cbn [r_dim r_mods2mds r_mds2mods r_mods2midverts r_lows r_child_verts r_old_verts2new_verts r].
  - exact HD.
  - intros d Hd. apply (FM d Hd).
  - intros d md Hd H. destruct (FM d Hd) as (_ & _ & -> & _ & B & _). apply B, H.
  - intros d e m Hd. apply (FM d Hd).
  - intros d Hd. destruct (Z.eq_dec d 0) as [->|N]; [destruct M0 as (l & E & L & _)|destruct (M1 d ltac:(lia)) as (l & E & L & _)]; rewrite (by_dim_get _ _ _ _ E); exact L.
  - intros d ld H1 H2. destruct (FM d ltac:(lia)) as (_ & _ & -> & _). unfold lows. destruct (Z.eqb_spec d ld) as [->|N]; [rewrite hdd by lia; rewrite zlen_zrange by (apply C1; lia); ring|].
    destruct (C2 ld d) as (_ & A & _); [lia..|]. rewrite A. rewrite (rf_degree b o RF) by (fold ms; fold dim; lia). reflexivity.
  - intros d ld low H1 H2 H. destruct (FM ld ltac:(lia)) as (_ & _ & -> & _). unfold lows in H. destruct (Z.eqb_spec d ld) as [->|N]; [apply in_zrange, H|]. destruct (C2 ld d) as (_ & _ & A & _); [lia..|]. apply In_zget in H as (i & Hi). exact (A i low Hi).
  - intros d Hd. destruct (rf_kids b o RF d Hd) as (A & B & C). destruct (FM d ltac:(lia)) as (_ & _ & -> & _). split; [exact A|]. split; [exact B|]. intros v Hv. destruct VN as (_ & _ & -> & _). apply C, Hv.
  - intros d md i v Hd H Hi E. destruct (FM d ltac:(lia)) as (_ & _ & _ & I & _). apply I in H. destruct (FM 0 ltac:(lia)) as (_ & _ & _ & I0 & _). apply I0. unfold lows in E. destruct (Z.eqb_spec d 0); [lia|]. exact (rf_verts b o RF d md i v Hd H Hi E).
Qed.
Lemma middle_g ld low v : 0 <= ld <= dim -> (ld = 0 -> In low (mods 0)) -> mid_vert r ld low v -> middle o mods vnum ld low v.
Proof.
  pose proof dim_ok as HD. intros Hld Hv H. destruct (Z.eq_dec ld 0) as [->|N].
  - left. split; [reflexivity|]. destruct H as [(m & A & B)|(A & _)]; [|exfalso; apply A, Hv; reflexivity]. cbn [r_mods2mds r_mods2midverts r] in *. destruct M0 as (l & E & L & G). rewrite (by_dim_get _ _ _ _ E) in B. cbn [some_of] in B. rewrite (G m low A) in B. exact B.
  - right. destruct H as [(m & A & B)|(A & old & B & C)]; cbn [r_mods2mds r_mods2midverts r_child_verts r_old_verts2new_verts r] in *.
    + left. split; [lia|]. split; [eapply zget_In; exact A|]. destruct (M1 ld ltac:(lia)) as (l & E & L & G). rewrite (by_dim_get _ _ _ _ E) in B. cbn [some_of] in B. rewrite (G m (zget_bounds _ _ _ A)) in B. exists m. rewrite split0 by lia. split; [change (Z.max 1 0) with 1; fold ms; fold dim; lia|]. split; [exact A|]. split; [lia|]. rewrite Z.mul_1_r, Z.add_0_r. exact B.
    + right. split; [lia|]. split; [exact A|]. exists old. auto.
Qed.
Lemma corner_verts pd d m md child vert ld low : 1 <= pd <= d -> d <= dim -> zget (mods d) m = Ok md -> 0 <= child < hypercube_split_degree d pd -> 0 <= vert < hypercube_degree pd 0 ->
  corner r d pd md child vert ld low -> 0 <= ld <= d /\ (ld = 0 -> In low (mods 0)).
Proof.
  pose proof dim_ok as HD. intros Hpd Hd Hm Hc Hv (w & ET & E). destruct (template_ok _ _ _ _ _ _ Hpd ltac:(lia) Hc Hv ET) as (Hld & Hw). split; [lia|]. intros ->. exact (ro_verts r refining_g d md w low ltac:(cbn; lia) (zget_In _ _ _ Hm) Hw E).
Qed.
Lemma stuck_g : (exists pd, 1 <= pd <= dim /\ stuck r pd) <-> no_middle o mods.
Proof using b RF.
  pose proof dim_ok as HD. clear FM VN M0 M1. split.
  - intros (pd & Hpd & d & m & md & child & vert & ld & low & kids & Hd & Hm & Hc & Hv & (w & ET & E) & A & B & C). cbn [r_dim r_mods2mds r_child_verts r_lows r] in *. exists pd, d, md, child, vert, ld, w, low, kids. split; [lia|]. split; [fold ms; fold dim; lia|]. split; [eapply zget_In; exact Hm|]. auto 10.
  - intros (pd & d & md & child & vert & ld & w & low & kids & Hpd & Hd & Hm & Hc & Hv & ET & E & A & B & C). fold ms in Hd. fold dim in Hd. apply In_zget in Hm as (m & Hm). exists pd. split; [lia|]. exists d, m, md, child, vert, ld, low, kids. cbn [r_dim r_mods2mds r_child_verts r]. split; [lia|]. split; [exact Hm|]. split; [exact Hc|]. split; [exact Hv|]. split; [exists w; auto|auto].
Qed.

Definition round (n pd : Z) : res (numbering * list Z * list Z * list Z) :=
    prods2verts <- get_refined_topology r pd n ;;
    num <- refine_numbers ms pd mods (o_marks o) ;;
    levels <- transfer_levels dim pd mods (prods2new num) (same2old num) (same2new num) (o_levels o) (nnew num) ;;
    leaves <- transfer_leaves dim pd mods (prods2new num) (same2old num) (same2new num) (old2new num) (o_leaves o pd) (nnew num) ;;
    Ok (num, prods2verts, levels, leaves).
Definition levels_ok (pd : Z) (num : numbering) (levels : list Z) : Prop :=
  (forall e d md p l, made_of dim pd mods (prods2new num) e d md p -> zget (o_levels o d) md = Ok l -> zget levels e = Ok (l + 1)) /\
  (forall e x l, same_as (same2old num) (same2new num) e x -> zget (o_levels o pd) x = Ok l -> zget levels e = Ok l).
Definition leaves_ok (pd : Z) (num : numbering) (leaves : list Z) : Prop :=
  (forall e d md p, made_of dim pd mods (prods2new num) e d md p -> zget leaves e = Ok 1) /\
  (forall e x, same_as (same2old num) (same2new num) e x -> In x (mods pd) -> zget leaves e = Ok 0) /\
  (forall e x l, same_as (same2old num) (same2new num) e x -> ~ In x (mods pd) -> zget (o_leaves o pd) x = Ok l -> zget leaves e = Ok l).
Definition verts_ok (pd : Z) (verts : list Z) : Prop :=
  forall d m md child vert, pd <= d <= dim -> zget (mods d) m = Ok md -> 0 <= child < hypercube_split_degree d pd -> 0 <= vert < hypercube_degree pd 0 ->
     exists ld which low v, hypercube_split_template d pd child vert = (ld, which) /\ zget (lows ms d ld) (md * hypercube_degree d ld + which) = Ok low /\ middle o mods vnum ld low v /\
     zget verts ((products mods pd pd d + m * hypercube_split_degree d pd + child) * hypercube_degree pd 0 + vert) = Ok v.
Lemma levels_g pd num : 0 <= pd <= dim -> num_ok pd num -> exists levels, transfer_levels dim pd mods (prods2new num) (same2old num) (same2new num) (o_levels o) (nnew num) = Ok levels /\ levels_ok pd num levels.
Proof.
  intros Hpd (A & _). destruct (transfer_levels_w dim pd mods _ _ _ (nents ms) _ A refine_old_g (o_levels o) (rf_levels b o RF) (rf_level b o RF)) as (l & E & _ & B & C). exists l. split; [exact E|]. split; [exact B|exact C].
Qed.
Lemma round_g pd n : 1 <= pd <= dim -> n = products mods pd pd (dim + 1) ->
  (exists num verts levels leaves, round n pd = Ok (num, verts, levels, leaves) /\ num_ok pd num /\ verts_ok pd verts /\ levels_ok pd num levels /\ leaves_ok pd num leaves /\ ~ stuck r pd) \/
  (round n pd = Abort /\ stuck r pd).
Proof.
  pose proof dim_ok as HD. intros Hpd Hn. unfold round. destruct (refined_topology_w r pd n refining_g Hpd Hn) as [(E & S)|(S & verts & E & L & G)]; rewrite E; cbn [bind]; [right; split; [reflexivity|exact S]|left].
  destruct (num_exists pd ltac:(lia)) as (num & -> & NO). cbn [bind]. destruct (levels_g pd num ltac:(lia) NO) as (levels & -> & LO). cbn [bind].
  pose proof NO as (A1 & A2 & A3 & A4 & A5 & A6).
  destruct (transfer_leaves_w dim pd mods _ _ _ (nents ms) _ A1 (old2new num) (o_leaves o pd)) as (leaves & -> & _ & B1 & B2 & B3); [lia|apply (rf_leaves b o RF); exact Hpd|exact A2|intros x Hx; apply A5; destruct (FM pd ltac:(lia)) as (_ & _ & _ & _ & B & _); apply B, Hx|]. cbn [bind].
  exists num, verts, levels, leaves. split; [reflexivity|]. split; [exact NO|]. split; [|split; [exact LO|split; [split; [exact B1|split; [exact B2|exact (B3 A4)]]|exact S]]].
  intros d m md child vert Hd Hm Hc Hv. destruct (G d m md child vert Hd Hm Hc Hv) as (ld & low & v & HC & MV & GV). destruct (corner_verts pd d m md child vert ld low ltac:(lia) ltac:(lia) Hm Hc Hv HC) as (Hld & H0). pose proof HC as (w & ET & EL).
  exists ld, w, low, v. split; [exact ET|]. split; [exact EL|]. split; [exact (middle_g ld low v ltac:(lia) H0 MV)|exact GV].
Qed.
End verts.
End given.

Lemma refine_w : exists mods, are_marked o mods /\
  ((refine_elem_based b o = Abort /\ no_middle o mods) \/
   (~ no_middle o mods /\ exists n, refine_elem_based b o = Ok n /\ zlen (n_numbers n) = dim + 1 /\ (forall pd, 0 <= pd <= dim -> entities_right o mods n pd) /\ (forall pd, 1 <= pd <= dim -> higher_right o mods n pd))).
Proof.
  pose proof dim_ok as HD. destruct mods_exist as (mods_l & inv_l & E1 & E2 & FM). set (mods := by_dim (fun l => l) mods_l) in *. set (inv := by_dim (fun l => l) inv_l) in *.
  exists mods. split; [exact (are_marked_g mods inv FM)|]. unfold refine_elem_based. fold ms. fold dim.
  destruct (count_refined_w b dim (o_marks o) mods HD) as (counts & EC & GC); [apply (rf_covers b o RF)|intros i x Hi; apply (rf_marks b o RF i); fold ms; fold dim; lia|intros i Hi; apply (FM i); lia|intros j Hj; apply (rf_fits b o RF mods j (are_marked_g mods inv FM) Hj)|].
  rewrite EC. cbn [bind]. rewrite E1. cbn [bind]. rewrite E2. cbn [bind]. fold mods. fold inv.
  destruct (num_exists mods inv FM 0 ltac:(lia)) as (vnum & EV & VN). rewrite EV. cbn [bind].
  destruct (midverts_w dim mods (old2new vnum) (prods2new vnum) HD) as (mids & EM & M0 & M1); [|pose proof VN as (A & _); exact (nu_count _ _ _ _ _ _ _ _ A)|].
  { intros v Hv. destruct VN as (_ & _ & -> & _). destruct (FM 0 ltac:(lia)) as (_ & _ & _ & _ & B & _). apply B, Hv. }
  rewrite EM. cbn [bind]. destruct (levels_g mods inv FM 0 vnum ltac:(lia) VN) as (vlev & EL & LV). rewrite EL. cbn [bind].
  pose proof (round_g mods inv FM vnum VN mids M0 M1) as RG. pose proof (stuck_g mods inv vnum mids) as SG.
  match goal with |- context [mapM ?f (zfromto 1 (dim + 1))] => set (rnd := f) end.
  set (r := {| r_dim := dim |}) in *.
  assert (RD : forall pd, 1 <= pd <= dim -> rnd pd = round mods inv vnum mids (products mods pd pd (dim + 1)) pd).
  { intros pd Hpd. unfold rnd. rewrite GC by lia. cbn [bind]. rewrite Z.max_r by lia. reflexivity. }
  assert (RQ : forall pd, 1 <= pd <= dim -> (exists num verts levels leaves, rnd pd = Ok (num, verts, levels, leaves) /\ num_ok mods pd num /\ verts_ok mods vnum pd verts /\ levels_ok mods pd num levels /\ leaves_ok mods pd num leaves /\ ~ stuck r pd) \/ (rnd pd = Abort /\ stuck r pd)).
  { intros pd Hpd. rewrite RD by exact Hpd. exact (RG pd _ Hpd eq_refl). }
  destruct (mapM_or_abort rnd (zfromto 1 (dim + 1))) as [(higher & EH)|(EH & pd & Hpd & Ea)].
  { intros pd Hpd. apply in_zfromto in Hpd. destruct (RQ pd ltac:(lia)) as [(n1 & n2 & n3 & n4 & E & _)|(E & _)]; rewrite E; eauto. }
  2: { left. rewrite EH. split; [reflexivity|]. apply SG. apply in_zfromto in Hpd. exists pd. split; [lia|]. destruct (RQ pd ltac:(lia)) as [(n1 & n2 & n3 & n4 & E & _)|(_ & S)]; [congruence|exact S]. }
  right. rewrite EH. cbn [bind].
  assert (HG : forall pd, 1 <= pd <= dim -> exists num verts levels leaves, zget higher (pd - 1) = Ok (num, verts, levels, leaves) /\ num_ok mods pd num /\ verts_ok mods vnum pd verts /\ levels_ok mods pd num levels /\ leaves_ok mods pd num leaves /\ ~ stuck r pd).
  { intros pd Hpd. destruct (mapM_get rnd (zfromto 1 (dim + 1)) higher (pd - 1) pd EH) as (y & Gy & Ey); [rewrite zget_zfromto by lia; f_equal; lia|]. destruct (RQ pd Hpd) as [(n1 & n2 & n3 & n4 & E & R)|(E & _)]; [|congruence]. rewrite E in Ey. injection Ey as <-. exists n1, n2, n3, n4. split; [exact Gy|exact R]. }
  split. { intros S. apply SG in S as (pd & Hpd & S). destruct (HG pd Hpd) as (n1 & n2 & n3 & n4 & _ & _ & _ & _ & _ & NS). exact (NS S). }
  set (nums := vnum :: map (fun h => fst (fst (fst h))) higher).
  assert (LH : zlen higher = dim). { apply mapM_length in EH. unfold zlen. rewrite EH. fold (zlen (zfromto 1 (dim + 1))). rewrite zlen_zfromto by lia. lia. }
  assert (NG : forall pd, 0 <= pd <= dim -> exists num, zget nums pd = Ok num /\ num_ok mods pd num).
  { intros pd Hpd. destruct (Z.eq_dec pd 0) as [->|N]; [exists vnum; split; [reflexivity|exact VN]|]. destruct (HG pd ltac:(lia)) as (n1 & n2 & n3 & n4 & G & A & _). exists n1. split; [|exact A]. unfold nums. rewrite zget_S by lia. rewrite zget_map, G. reflexivity. }
  assert (NL : zlen nums = dim + 1) by (unfold nums; rewrite zlen_cons, zlen_map, LH; lia).
  assert (ON : forall d, 0 <= d <= dim -> zlen (by_dim old2new nums d) = nents ms d). { intros d Hd. destruct (NG d Hd) as (num & G & (_ & _ & A & _)). rewrite (by_dim_get _ _ _ _ G). exact A. }
  pose proof (refine_old_g mods inv FM) as RO.
  destruct (tab_total (dim + 1) (fun prod_dim => num <- zget nums prod_dim ;; transfer_parents dim prod_dim mods (prods2new num) (same2old num) (same2new num) (by_dim old2new nums) (o_parents o prod_dim) (nnew num))) as (np & EP & LP & GP); [lia| |].
  { intros d Hd. destruct (NG d ltac:(lia)) as (num & -> & (A & _)). cbn [bind]. destruct (transfer_parents_w dim d mods _ _ _ (nents ms) _ A RO (by_dim old2new nums) (o_parents o d) (rf_parents b o RF d ltac:(fold ms; fold dim; lia)) ON) as (p & E & _). eauto. }
  unfold tabulate in EP. rewrite EP. cbn [bind].
  assert (EN : mapM (fun num => Ok (nnew num)) nums = Ok (map nnew nums)). { clear. induction nums as [|a l IH]; [reflexivity|]. cbn [mapM bind map]. rewrite IH. reflexivity. }
  rewrite EN. cbn [bind]. set (nn := fun d => match zget (map nnew nums) d with Ok n => n | _ => 0 end).
  assert (NNd : forall d num, zget nums d = Ok num -> nn d = nnew num) by (intros d num G; unfold nn; rewrite zget_map, G; reflexivity).
  assert (PG : forall d num, 0 <= d <= dim -> zget nums d = Ok num -> num_ok mods d num -> exists p, zget np d = Ok p /\ transfer_parents dim d mods (prods2new num) (same2old num) (same2new num) (by_dim old2new nums) (o_parents o d) (nnew num) = Ok p).
  { intros d num Hd G (A & _). specialize (GP d ltac:(lia)). rewrite G in GP. cbn [bind] in GP. destruct (transfer_parents_w dim d mods _ _ _ (nents ms) _ A RO (by_dim old2new nums) (o_parents o d) (rf_parents b o RF d Hd) ON) as (p & E & _). exists p. rewrite GP. auto. }
  destruct (transfer_inherit_w dim mods (by_dim prods2new nums) (by_dim same2old nums) (by_dim same2new nums) (by_dim old2new nums) (o_data o) (o_parents o) (parents_by_dim np) (nents ms) nn HD) as (data & ED & GD).
  { intros d Hd. destruct (NG d Hd) as (num & G & (A & _)). rewrite !(by_dim_get _ _ _ _ G), (NNd d num G). exact A. }
  { exact RO. } { exact (rf_data b o RF). } { exact ON. }
  { intros d Hd. destruct (NG d Hd) as (num & G & (_ & A & _)). rewrite !(by_dim_get _ _ _ _ G). exact A. }
  { intros d x Hd Hx. destruct (NG d ltac:(lia)) as (num & G & (_ & _ & _ & _ & A & _)). rewrite !(by_dim_get _ _ _ _ G). apply A. apply RO; [exact Hd|exact Hx]. }
  { exact (rf_parents b o RF). }
  { intros d Hd. destruct (NG d Hd) as (num & G & A). rewrite !(by_dim_get _ _ _ _ G), (NNd d num G). destruct (PG d num Hd G A) as (p & G2 & ->). unfold parents_by_dim. rewrite G2. reflexivity. }
  rewrite ED. cbn [bind]. eexists. split; [reflexivity|]. split; [exact NL|]. split.
  - intros pd Hpd. unfold entities_right. fold ms. fold dim. cbn [n_numbers n_levels n_parents n_data]. fold nums. destruct (NG pd Hpd) as (num & G & NO). destruct (PG pd num Hpd G NO) as (par & G2 & EPa). destruct (GD pd Hpd) as (dat & G3 & _ & D1 & D2). rewrite !(by_dim_get _ _ _ _ G) in D1. rewrite !(by_dim_get _ _ _ _ G) in D2.
    assert (LL : exists lev, zget (vlev :: map (fun h => snd (fst h)) higher) pd = Ok lev /\ levels_ok mods pd num lev).
    { destruct (Z.eq_dec pd 0) as [->|N]; [exists vlev; split; [reflexivity|]; assert (num = vnum) by (unfold nums in G; cbn in G; congruence); subst num; exact LV|]. destruct (HG pd ltac:(lia)) as (n1 & n2 & n3 & n4 & Gh & _ & _ & A & _). exists n3. rewrite zget_S by lia. rewrite zget_map, Gh. split; [reflexivity|]. assert (num = n1); [|subst; exact A]. unfold nums in G. rewrite zget_S in G by lia. rewrite zget_map, Gh in G. cbn in G. congruence. }
    destruct LL as (lev & G4 & LO1 & LO2). exists num, lev, par, dat. split; [exact G|]. split; [exact G4|]. split; [exact G2|]. split; [exact G3|]. pose proof NO as (A1 & A2 & A3 & A4 & A5 & A6). split; [exact A1|]. split; [exact A2|]. split; [intros x Hx; exact (same_exists mods pd num x NO Hx)|]. split; [exact A6|].
    destruct (transfer_parents_w dim pd mods _ _ _ (nents ms) _ A1 RO (by_dim old2new nums) (o_parents o pd) (rf_parents b o RF pd Hpd) ON) as (par' & E' & _ & _ & P1 & P2). assert (par' = par) by congruence. subst par'. split.
    + intros e d md p M. split; [intros l; exact (LO1 e d md p l M)|]. split; [|exact (D1 e d md p M)]. destruct (P1 e d md p M) as (Q1 & c & Q2 & Q3 & Q4). destruct M as (m & Hd & _). destruct (NG d ltac:(lia)) as (dnum & Gd & _). rewrite (by_dim_get _ _ _ _ Gd) in Q1. exists dnum, c. auto 10.
    + intros e x S. split; [intros l; exact (LO2 e x l S)|]. split; [|exact (D2 e x S)]. intros q c Hq Hc. destruct (P2 e x q c S Hq Hc) as (Q1 & Q2). split; [exact Q1|]. split; intros H.
      * destruct (Z.ltb_spec q 0); [exact Q2|lia].
      * destruct (Z.ltb_spec q 0); [lia|]. destruct (rf_parents b o RF pd Hpd) as (_ & _ & PO). destruct (PO x q c Hq Hc H) as (Hc2 & _). destruct (NG (code_parent_dim c) Hc2) as (qnum & Gq & _). rewrite (by_dim_get _ _ _ _ Gq) in Q2. eauto.
  - intros pd Hpd. unfold higher_right. fold ms. fold dim. cbn [n_numbers n_verts n_leaves]. fold nums. destruct (HG pd Hpd) as (num & verts & lev & leaves & G & NO & VO & _ & (L1 & L2 & L3) & _). exists vnum, num, verts, leaves. split; [reflexivity|]. split; [unfold nums; rewrite zget_S by lia; rewrite zget_map, G; reflexivity|]. split; [rewrite zget_map, G; reflexivity|]. split; [rewrite zget_map, G; reflexivity|].
    split; [exact L1|]. split; [exact L2|]. split; [exact L3|exact VO].
Qed.
End whole.
