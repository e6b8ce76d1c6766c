From Verif Require Import Prelude M_Array P_Array M_Graph P_Graph M_Sort S_Sort P_Sort M_Map S_Map P_Map P_Map2 M_Template S_Template P_Template
  M_Align S_Align P_Align M_Unique S_Unique P_Unique M_Adj M_Match S_Match P_Match M_Transit S_Transit.
Local Open Scope Z_scope.

(** an edge of a polygon moves with its direction, which a flip reverses *)
Lemma directed_edge {A} n code (l l' : list A) j v w : 3 <= n <= 4 -> zlen l = n -> 0 <= j < n ->
  align_adj n code l = Ok l' -> zget l j = Ok v -> zget l ((j + 1) mod n) = Ok w ->
  0 <= align_edge_index n j code < n /\
  zget l' (align_edge_index n j code) = Ok (if code_is_flipped code then w else v) /\
  zget l' ((align_edge_index n j code + 1) mod n) = Ok (if code_is_flipped code then v else w).
Proof.
  intros Hn Hl Hj E Hv Hw. rewrite align_act in E. change (align_edge_index n j code) with (edge n j (code_is_flipped code) (code_rotation code)).
  pose proof (rot_range code) as Hr. generalize dependent (code_rotation code). intros r E Hr. destruct (code_is_flipped code).
  all: polygon l Hl; try lia; rots r Hr; vm_compute in E; injection E as <-.
  all: assert (j = 0 \/ j = 1 \/ j = 2 \/ j = 3) as K by lia; destruct K as [->|[->|[->| ->]]]; try lia.
  all: vm_compute in Hv, Hw; vm_compute; repeat split; congruence.
Qed.

(** ** template facts *)
Lemma vert_template f high hl : 2 <= high <= 3 -> 0 <= hl < element_degree f high 0 ->
  exists hm hml fl, element_up_template f high 0 hl 0 = (hm, hml, fl) /\ 0 <= hm < element_degree f high 1 /\ 0 <= hml < 2 /\ element_down_template f high 1 hm hml = hl.
Proof.
  intros Hh Hl. assert (forallb (fun f => forallb (fun high => forallb (fun hl => (high <? 2) || let '(hm, hml, fl) := element_up_template f high 0 hl 0 in
    (0 <=? hm) && (hm <? element_degree f high 1) && (0 <=? hml) && (hml <? 2) && (element_down_template f high 1 hm hml =? hl)) (zrange (element_degree f high 0))) (zrange 4)) families = true) as H by (vm_compute; reflexivity).
  rewrite forallb_forall in H. specialize (H f (in_families f)). pose proof (sweep _ _ H high ltac:(lia)) as H1. cbv beta in H1. pose proof (sweep _ _ H1 hl Hl) as H2. cbv beta in H2.
  destruct (element_up_template f high 0 hl 0) as [[hm hml] fl]. exists hm, hml, fl. split; [reflexivity|]. lia.
Qed.
Lemma edge_template f hl : 0 <= hl < element_degree f 3 1 ->
  exists hm hml fl, element_up_template f 3 1 hl 0 = (hm, hml, fl) /\ 0 <= hm < element_degree f 3 2 /\ 0 <= hml < element_degree f 2 0 /\
  element_down_template f 3 2 hm hml = element_down_template f 3 1 hl (if fl then 1 else 0) /\
  element_down_template f 3 2 hm ((hml + 1) mod element_degree f 2 0) = element_down_template f 3 1 hl (if fl then 0 else 1).
Proof.
  intros Hl. assert (forallb (fun f => forallb (fun hl => let '(hm, hml, fl) := element_up_template f 3 1 hl 0 in
    (0 <=? hm) && (hm <? element_degree f 3 2) && (0 <=? hml) && (hml <? element_degree f 2 0) && (element_down_template f 3 2 hm hml =? element_down_template f 3 1 hl (if fl : bool then 1 else 0)) &&
    (element_down_template f 3 2 hm ((hml + 1) mod element_degree f 2 0) =? element_down_template f 3 1 hl (if fl then 0 else 1))) (zrange (element_degree f 3 1))) families = true) as H by (vm_compute; reflexivity).
  rewrite forallb_forall in H. specialize (H f (in_families f)). pose proof (sweep _ _ H hl Hl) as H1. cbv beta in H1.
  destruct (element_up_template f 3 1 hl 0) as [[hm hml] fl]. exists hm, hml, fl. split; [reflexivity|]. destruct fl; lia.
Qed.
Lemma face_edges f u : 0 <= u < element_degree f 2 0 -> side_verts f 2 1 u = [u; (u + 1) mod element_degree f 2 0].
Proof.
  intros Hu. assert (forallb (fun f => forallb (fun u => leqb (side_verts f 2 1 u) [u; (u + 1) mod element_degree f 2 0]) (zrange (element_degree f 2 0))) families = true) as H by (vm_compute; reflexivity).
  rewrite forallb_forall in H. specialize (H f (in_families f)). pose proof (sweep _ _ H u Hu) as H1. cbv beta in H1.
  apply leqb_spec, H1.
Qed.
Lemma edge_verts f high u : 2 <= high <= 3 -> side_verts f high 1 u = [element_down_template f high 1 u 0; element_down_template f high 1 u 1].
Proof. intros H. destruct f; reflexivity. Qed.
Lemma face_degree f : element_degree f 2 1 = element_degree f 2 0 /\ 3 <= element_degree f 2 0 <= 4.
Proof. destruct f; vm_compute; repeat split; discriminate. Qed.
Lemma vert_degree f : element_degree f 1 0 = 2.
Proof. destruct f; reflexivity. Qed.

(** ** sides of elements *)
Lemma Forall2_zget {A B} (R : A -> B -> Prop) l m : Forall2 R l m -> forall i x, zget l i = Ok x -> exists y, zget m i = Ok y /\ R x y.
Proof.
  intros F i x E. apply zget_ok in E as [Hi E]. assert (exists y, nth_error m (Z.to_nat i) = Some y /\ R x y) as (y & E2 & HR).
  { clear Hi. revert E. generalize (Z.to_nat i) as k. induction F as [|a b l m Hab F IH]; intros [|k] E; cbn [nth_error] in E; try discriminate.
    - injection E as ->. exists b. split; [reflexivity|exact Hab].
    - destruct (IH k E) as (y & E1 & E2). exists y. auto. }
  exists y. split; [|exact HR]. apply zget_ok. auto.
Qed.
Lemma side_entry f high low hv2v h u row hrow v : is_side f high low hv2v h u row -> row_is (element_degree f high 0) hv2v h hrow -> 0 <= v < nverts f low ->
  exists x, zget row v = Ok x /\ zget hrow (element_down_template f high low u v) = Ok x.
Proof.
  intros (hr & R & Hu & F) R' Hv. rewrite (row_is_unique _ _ _ _ _ R R') in F.
  destruct (Forall2_zget _ _ _ F v (element_down_template f high low u v)) as (x & E & Ex); [|eauto].
  unfold side_verts. rewrite zget_map, zget_zrange by exact Hv. reflexivity.
Qed.
Lemma side_exists f high low hv2v h u hrow : 0 <= low < high -> high <= 3 -> row_is (element_degree f high 0) hv2v h hrow -> 0 <= u < element_degree f high low -> exists row, is_side f high low hv2v h u row.
Proof.
  intros Hl Hh R Hu. destruct (mapM_total (zget hrow) (side_verts f high low u)) as (row & E).
  { intros v Hv. unfold side_verts in Hv. apply in_map_iff in Hv as (k & <- & Hk). apply in_zrange in Hk. apply zget_in_range. rewrite (proj1 R). apply down_range; assumption. }
  exists row, hrow. split; [exact R|]. split; [exact Hu|]. apply mapM_ok, E.
Qed.

(** ** the loop over the lows of an element *)
Lemma transit_loop (step : list Z * list Z -> Z -> res (list Z * list Z)) (L C : Z -> Z) (wc : bool) n : 0 <= n ->
  (forall i j, 0 <= i < n -> 0 <= j < n -> L i = L j -> i = j) ->
  (forall done i, 0 <= i < n -> step done i = (_ <- check (forallb (fun l2 => negb (L i =? l2)) (fst done)) ;; Ok (fst done ++ [L i], if wc then snd done ++ [C i] else snd done))) ->
  foldM step (zrange n) ([], []) = Ok (map L (zrange n), if wc then map C (zrange n) else []).
Proof.
  intros Hn HI HS. assert (forall k, (k <= Z.to_nat n)%nat -> foldM step (zrange (Z.of_nat k)) ([], []) = Ok (map L (zrange (Z.of_nat k)), if wc then map C (zrange (Z.of_nat k)) else [])) as K.
  { induction k as [|k IH]; intros Hk; [destruct wc; reflexivity|]. replace (Z.of_nat (S k)) with (Z.of_nat k + 1) by lia. rewrite zrange_succ by lia.
    rewrite foldM_app, IH by lia. cbn [bind foldM]. rewrite HS by lia. cbn [fst snd].
    assert (forallb (fun l2 => negb (L (Z.of_nat k) =? l2)) (map L (zrange (Z.of_nat k))) = true) as ->.
    { apply forallb_forall. intros x Hx. apply in_map_iff in Hx as (j & <- & Hj). apply in_zrange in Hj. destruct (Z.eqb_spec (L (Z.of_nat k)) (L j)) as [E|]; [|reflexivity].
      apply HI in E; lia. }
    cbn [check bind]. rewrite !map_app. destruct wc; reflexivity. }
  specialize (K (Z.to_nat n) ltac:(lia)). rewrite Z2Nat.id in K by lia. exact K.
Qed.

(** ** to vertices *)
Lemma transit_verts_spec f high hv2v ev2v he2e codes nh : 2 <= high <= 3 -> zlen hv2v = nh * element_degree f high 0 -> rows_distinct (element_degree f high 0) hv2v ->
  zlen he2e = nh * element_degree f high 1 -> reflects f high 1 hv2v ev2v he2e codes ->
  transit (mk_adj [] he2e (Some codes)) (mk_adj [] ev2v None) f high 0 = Ok (hv2v, None).
Proof.
  intros Hh Lh HD Le HR. set (d := element_degree f high 0) in *. assert (0 < d) as Hd by (apply degree_pos; lia). assert (0 < element_degree f high 1) as He by (apply degree_pos; lia).
  assert (0 <= nh) as Hn by (pose proof (zlen_nonneg hv2v); nia).
  unfold transit. cbn [adj_codes adj_ab2b]. unfold check. destruct (Z.leb_spec high 3); [|lia]. cbn [bind]. destruct (Z.ltb_spec (0 + 1) high); [|lia]. cbn [bind Z.eqb orb].
  unfold divide_no_remainder, check. change (0 + 1) with 1. destruct (Z.eqb_spec (element_degree f high 1) 0); [lia|]. cbn [negb bind]. rewrite Le, Z.rem_mul, Z.quot_mul by lia. cbn [Z.eqb bind]. fold d.
  set (L := fun h hl => match zget hv2v (h * d + hl) with Ok x => x | _ => 0 end).
  assert (forall h, 0 <= h < nh -> foldM (transit_low he2e codes ev2v None f high 0 h) (zrange d) ([], []) = Ok (map (L h) (zrange d), [])) as K.
  { intros h Hhh. pose proof (row_is_tuple d hv2v nh h ltac:(lia) Lh Hhh) as R. set (hrow := tuple hv2v d h) in *.
    apply (transit_loop _ (L h) (fun _ => 0) false d ltac:(lia)).
    - intros i j Hi Hj E. unfold L in E. destruct (zget_in_range hrow i ltac:(rewrite (proj1 R); exact Hi)) as (x & Ex). destruct (zget_in_range hrow j ltac:(rewrite (proj1 R); exact Hj)) as (y & Ey).
      rewrite (row_zget _ _ _ _ _ R Hi), (row_zget _ _ _ _ _ R Hj), Ex, Ey in E. subst y. exact (NoDup_zget _ _ _ _ (HD _ _ R) Ex Ey).
    - intros done hl Hl. unfold transit_low. destruct (vert_template f high hl Hh Hl) as (hm & hml & fl & -> & Hm & Hml & Et). change (0 + 1) with 1. rewrite vert_degree.
      destruct (side_exists f high 1 hv2v h hm hrow ltac:(lia) ltac:(lia) R Hm) as (row & Sd).
      destruct (HR h hm row Sd) as (m & code & mrow & E1 & E2 & Rm & Al & Hr). rewrite vert_degree in Rm, Al, Hr.
      rewrite E1, E2. cbn [bind]. pose proof (inverse_spec 2 code mrow row ltac:(lia) (proj1 Rm) Hr Al) as Inv.
      destruct (side_entry f high 1 hv2v h hm row hrow hml Sd R ltac:(rewrite nverts_eq, vert_degree; lia)) as (x & X1 & X2). rewrite Et in X2.
      assert (zlen row = 2) as Lrow by (exact (align_len 2 code mrow row ltac:(lia) (proj1 Rm) Al)).
      destruct (align_spec 2 (invert_alignment 2 code) row ltac:(lia) Lrow) as (m' & Em & Lm & Gm). assert (m' = mrow) as -> by congruence. specialize (Gm hml Hml). rewrite X1 in Gm.
      change (align_index 2 0 hml (invert_alignment 2 code)) with (align_vert_index 2 hml (invert_alignment 2 code)).
      pose proof (zget_bounds _ _ _ Gm) as Bm. rewrite Lm in Bm. rewrite (row_zget _ _ _ _ _ Rm Bm), Gm. cbn [bind Z.eqb].
      assert (L h hl = x) as ->; [|reflexivity]. unfold L. rewrite (row_zget _ _ _ _ _ R Hl), X2. reflexivity. }
  unfold tabulate. rewrite (mapM_map_ok _ (fun h => (map (L h) (zrange d), @nil Z))) by (intros h Hin; apply in_zrange in Hin; apply K; exact Hin).
  cbn [bind]. f_equal. f_equal. rewrite map_map. cbn [fst]. 
  assert (Forall (fun r => zlen r = d) (map (fun h => map (L h) (zrange d)) (zrange nh))) as HF.
  { apply Forall_forall. intros r Hr. apply in_map_iff in Hr as (h & <- & _). rewrite zlen_map, zlen_zrange; lia. }
  apply list_eq_zget; [rewrite (zlen_concat d) by exact HF; rewrite zlen_map, zlen_zrange; lia|].
  intros k Hk. rewrite (zlen_concat d), zlen_map, zlen_zrange in Hk by (exact HF || lia).
  pose proof (Z.div_mod k d ltac:(lia)) as Eq. pose proof (Z.mod_pos_bound k d Hd) as Hm.
  assert (0 <= k / d < nh) as Hq by (split; [apply Z.div_pos; lia|apply Z.div_lt_upper_bound; lia]).
  replace k with (k / d * d + k mod d) by lia.
  rewrite (zget_concat d _ HF (k / d) (map (L (k / d)) (zrange d))); [|rewrite zget_map, zget_zrange by exact Hq; reflexivity|exact Hm].
  rewrite zget_map, zget_zrange by exact Hm. cbn [bind]. unfold L. destruct (zget_in_range hv2v (k / d * d + k mod d) ltac:(lia)) as (x & ->). reflexivity.
Qed.

(** ** to edges *)
Lemma transit_edges_spec f hv2v fv2v ev2v hf2f hf_codes fe2e fe_codes nh : zlen hv2v = nh * element_degree f 3 0 -> rows_distinct (element_degree f 3 0) hv2v ->
  zlen hf2f = nh * element_degree f 3 2 -> reflects f 3 2 hv2v fv2v hf2f hf_codes -> reflects f 2 1 fv2v ev2v fe2e fe_codes ->
  exists he2e codes, transit (mk_adj [] hf2f (Some hf_codes)) (mk_adj [] fe2e (Some fe_codes)) f 3 1 = Ok (he2e, Some codes) /\
  zlen he2e = nh * element_degree f 3 1 /\ zlen codes = nh * element_degree f 3 1 /\ reflects f 3 1 hv2v ev2v he2e codes.
Proof.
  intros Lh HD Lf HRf HRe. set (d := element_degree f 3 1) in *. set (n := element_degree f 2 0) in *. destruct (face_degree f) as [En Hn]. fold n in En, Hn.
  assert (0 < d) as Hd by (apply degree_pos; lia). assert (0 < element_degree f 3 2) as He by (apply degree_pos; lia). assert (0 < element_degree f 3 0) as Hd0 by (apply degree_pos; lia).
  assert (0 <= nh) as Hnh by (pose proof (zlen_nonneg hv2v); nia).
  unfold transit. cbn [adj_codes adj_ab2b]. change (check (3 <=? 3)) with (Ok tt). change (check (1 + 1 <? 3)) with (Ok tt). change (check ((1 =? 1) || (1 =? 0))) with (Ok tt). cbn [bind].
  unfold divide_no_remainder, check. change (1 + 1) with 2. destruct (Z.eqb_spec (element_degree f 3 2) 0); [lia|]. cbn [negb bind]. rewrite Lf, Z.rem_mul, Z.quot_mul by lia. cbn [Z.eqb bind]. fold d.
  (* what one step computes *)
  assert (forall h hl, 0 <= h < nh -> 0 <= hl < d -> exists l c lrow, (forall done, transit_low hf2f hf_codes fe2e (Some fe_codes) f 3 1 h done hl =
     (_ <- check (forallb (fun l2 => negb (l =? l2)) (fst done)) ;; Ok (fst done ++ [l], snd done ++ [c]))) /\
     row_is 2 ev2v l lrow /\ (forall row, is_side f 3 1 hv2v h hl row -> align_adj 2 c lrow = Ok row) /\ code_rotation c < 2) as K.
  { intros h hl Hh Hl. pose proof (row_is_tuple (element_degree f 3 0) hv2v nh h ltac:(lia) Lh Hh) as R. set (hrow := tuple hv2v (element_degree f 3 0) h) in *.
    destruct (edge_template f hl Hl) as (hm & hml & fl & Et & Hm & Hml & T1 & T2). fold n in Hml, T2.
    destruct (side_exists f 3 2 hv2v h hm hrow ltac:(lia) ltac:(lia) R Hm) as (row & Sd).
    destruct (HRf h hm row Sd) as (m & code & mrow & E1 & E2 & Rm & Al & Hr). fold n in Rm, Al, Hr.
    pose proof (inverse_spec n code mrow row ltac:(lia) (proj1 Rm) Hr Al) as Inv. assert (zlen row = n) as Lrow by (exact (align_len n code mrow row ltac:(lia) (proj1 Rm) Al)).
    pose proof (Z.mod_pos_bound (hml + 1) n ltac:(lia)) as Hml1.
    destruct (side_entry f 3 2 hv2v h hm row hrow hml Sd R ltac:(rewrite nverts_eq by lia; exact Hml)) as (x & X1 & X2).
    destruct (side_entry f 3 2 hv2v h hm row hrow ((hml + 1) mod n) Sd R ltac:(rewrite nverts_eq by lia; exact Hml1)) as (y & Y1 & Y2). rewrite T1 in X2. rewrite T2 in Y2.
    destruct (directed_edge n (invert_alignment n code) row mrow hml x y Hn Lrow Hml Inv X1 Y1) as (Hml' & D1 & D2). set (ml := align_edge_index n hml (invert_alignment n code)) in *.
    destruct (side_exists f 2 1 fv2v m ml mrow ltac:(lia) ltac:(lia) Rm ltac:(rewrite En; exact Hml')) as (erow & Se).
    destruct (HRe m ml erow Se) as (l & ec & lrow & G1 & G2 & Rl & Ae & Hre). rewrite vert_degree in Rl, Ae, Hre. rewrite En in G1, G2.
    set (flm := code_is_flipped (invert_alignment n code)) in *.
    exists l, (make_code false (Z.b2z (xorb (xorb flm (code_rotation ec =? 1)) fl)) 0), lrow. split; [|split; [exact Rl|split]].
    - intros done. unfold transit_low. rewrite Et. change (1 + 1) with 2. rewrite E1, E2. cbn [bind]. rewrite En.
      change (align_index n 1 hml (invert_alignment n code)) with ml. rewrite G1. cbn [bind Z.eqb]. rewrite G2. reflexivity.
    - intros trow St. destruct (side_entry f 3 1 hv2v h hl trow hrow 0 St R ltac:(rewrite nverts_eq, vert_degree; lia)) as (p & P1 & P2).
      destruct (side_entry f 3 1 hv2v h hl trow hrow 1 St R ltac:(rewrite nverts_eq, vert_degree; lia)) as (q & Q1 & Q2).
      assert (trow = [p; q]) as ->.
      { destruct St as (hr & _ & _ & F). apply Forall2_len in F. rewrite edge_verts in F by lia. destruct trow as [|t0 [|t1 [|t2 tr]]]; cbn [length] in F; try lia. vm_compute in P1, Q1. congruence. }
      assert (erow = [if flm then y else x; if flm then x else y]) as ->.
      { destruct Se as (mr & Rmr & _ & F). assert (mr = mrow) as -> by (eapply row_is_unique; eassumption). rewrite face_edges in F by exact Hml'. fold n in F.
        inversion F as [|? e0 ? er F0 F1]; subst. inversion F1 as [|? e1 ? er' F2 F3]; subst. inversion F3; subst. f_equal; [congruence|]. f_equal. congruence. }
      assert (if fl then x = q /\ y = p else x = p /\ y = q) as XY by (destruct fl; split; congruence).
      assert (exists a b, lrow = [a; b]) as (a & b & ->). { destruct (zlen_cases lrow 2 (proj1 Rl) ltac:(lia)) as [(a & b & -> & _)|[(? & ? & ? & _ & F)|(? & ? & ? & ? & _ & F)]]; [eauto|lia|lia]. }
      rewrite align_act in *. pose proof (rot_range ec) as Re. destruct (code_fields false (Z.b2z (xorb (xorb flm (code_rotation ec =? 1)) fl)) 0 ltac:(destruct (xorb (xorb flm (code_rotation ec =? 1)) fl); cbn [Z.b2z]; lia) ltac:(lia)) as (-> & -> & _).
      assert (code_rotation ec = 0 \/ code_rotation ec = 1) as [Er|Er] by lia; rewrite Er in *; change (0 =? 1) with false; change (1 =? 1) with true;
      destruct (code_is_flipped ec), flm, fl; cbn [xorb Z.b2z]; destruct XY as [-> ->]; vm_compute in Ae; injection Ae as -> ->; reflexivity.
    - apply code_small; [lia|]. destruct (xorb (xorb flm (code_rotation ec =? 1)) fl); cbn [Z.b2z]; lia. }
  set (step := transit_low hf2f hf_codes fe2e (Some fe_codes) f 3 1) in *.
  set (L := fun h hl => match step h ([], []) hl with Ok ([l], _) => l | _ => 0 end). set (C := fun h hl => match step h ([], []) hl with Ok (_, [c]) => c | _ => 0 end).
  assert (forall h hl, 0 <= h < nh -> 0 <= hl < d -> exists lrow, (forall done, step h done hl =
     (_ <- check (forallb (fun l2 => negb (L h hl =? l2)) (fst done)) ;; Ok (fst done ++ [L h hl], snd done ++ [C h hl]))) /\
     row_is 2 ev2v (L h hl) lrow /\ (forall row, is_side f 3 1 hv2v h hl row -> align_adj 2 (C h hl) lrow = Ok row) /\ code_rotation (C h hl) < 2) as KK.
  { intros h hl Hh Hl. destruct (K h hl Hh Hl) as (l & c & lrow & K1 & K2). assert (L h hl = l) as -> by (unfold L; rewrite K1; reflexivity). assert (C h hl = c) as -> by (unfold C; rewrite K1; reflexivity). eauto. }
  assert (forall h, 0 <= h < nh -> foldM (step h) (zrange d) ([], []) = Ok (map (L h) (zrange d), map (C h) (zrange d))) as KF.
  { intros h Hh. apply (transit_loop _ (L h) (C h) true d ltac:(lia)).
    - intros i j Hi Hj E. destruct (KK h i Hh Hi) as (r & _ & R1 & A1 & _). destruct (KK h j Hh Hj) as (r' & _ & R2 & A2 & _). rewrite E in R1. assert (r' = r) as -> by (eapply row_is_unique; eassumption).
      pose proof (row_is_tuple (element_degree f 3 0) hv2v nh h ltac:(lia) Lh Hh) as R. set (hrow := tuple hv2v (element_degree f 3 0) h) in *.
      destruct (side_exists f 3 1 hv2v h i hrow ltac:(lia) ltac:(lia) R Hi) as (row & Si). destruct (side_exists f 3 1 hv2v h j hrow ltac:(lia) ltac:(lia) R Hj) as (row' & Sj).
      specialize (A1 row Si). specialize (A2 row' Sj).
      assert (same_set row row') as HS.
      { pose proof (polygon_spec 2 _ _ _ ltac:(lia) (proj1 R1) A1) as P1. pose proof (polygon_spec 2 _ _ _ ltac:(lia) (proj1 R1) A2) as P2.
        assert (forall a b : list Z, same_polygon a b -> same_set a b) as PS.
        { intros a b [(x & y & -> & ->)|(x & y & E2 & ->)] z; [rewrite !in_app_iff; tauto|]. rewrite (in_rev a), E2, !in_app_iff. tauto. }
        intros z. rewrite <- (PS _ _ P1 z). apply (PS _ _ P2 z). }
      apply (sides_distinct f 3 1 i j); [lia|lia|exact Hi|exact Hj|].
      destruct Si as (hi & Ri & _ & Fi). destruct Sj as (hj & Rj & _ & Fj). assert (hi = hrow) as -> by (eapply row_is_unique; eassumption). assert (hj = hrow) as -> by (eapply row_is_unique; eassumption).
      assert (forall w w' r r', Forall2 (fun v x => zget hrow v = Ok x) w r -> Forall2 (fun v x => zget hrow v = Ok x) w' r' -> (forall z, In z r -> In z r') -> forall v, In v w -> In v w') as KS.
      { clear - HD R. intros w w' r r' F F' Hin v Hv. apply In_zget in Hv as (k & Hk). destruct (Forall2_zget _ _ _ F k v Hk) as (x & X1 & X2). apply zget_In in X1. apply Hin in X1.
        clear F Hin Hk. induction F' as [|v' x' w' r' E _ IH]; [destruct X1|]. destruct X1 as [->|X1]; [left|right; apply IH, X1]. exact (NoDup_zget _ _ _ _ (HD _ _ R) E X2). }
      intros v. split; [apply (KS _ _ _ _ Fi Fj)|apply (KS _ _ _ _ Fj Fi)]; intros z; apply HS.
    - intros done i Hi. destruct (KK h i Hh Hi) as (r & K1 & _). apply K1. }
  unfold tabulate. rewrite (mapM_map_ok _ (fun h => (map (L h) (zrange d), map (C h) (zrange d)))) by (intros h Hin; apply in_zrange in Hin; apply KF; exact Hin).
  cbn [bind Z.eqb]. rewrite !map_map. cbn [fst snd].
  assert (forall X : Z -> Z -> Z, Forall (fun r => zlen r = d) (map (fun h => map (X h) (zrange d)) (zrange nh))) as HF.
  { intros X. apply Forall_forall. intros r Hr. apply in_map_iff in Hr as (h & <- & _). rewrite zlen_map, zlen_zrange; lia. }
  assert (forall (X : Z -> Z -> Z) h hl, 0 <= h < nh -> 0 <= hl < d -> zget (concat (map (fun h => map (X h) (zrange d)) (zrange nh))) (h * d + hl) = Ok (X h hl)) as HG.
  { intros X h hl Hh Hl. rewrite (zget_concat d _ (HF X) h (map (X h) (zrange d))); [|rewrite zget_map, zget_zrange by exact Hh; reflexivity|exact Hl]. rewrite zget_map, zget_zrange by exact Hl. reflexivity. }
  do 2 eexists. split; [reflexivity|]. do 2 (split; [rewrite (zlen_concat d) by apply HF; rewrite zlen_map, zlen_zrange; lia|]).
  intros h u row Sd. pose proof Sd as (hr & R & Hu & _). fold d in Hu. pose proof (row_is_range _ hv2v nh h hr Hd0 Lh R) as Hh. fold d. rewrite vert_degree.
  destruct (KK h u Hh Hu) as (lrow & _ & R1 & A1 & B1). exists (L h u), (C h u), lrow. rewrite (HG L h u Hh Hu), (HG C h u Hh Hu). auto 10.
Qed.
