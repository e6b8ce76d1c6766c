(** Meshes of boxes: the symmetric ones. *)
From Verif Require Import Prelude S_Sort M_Sort S_Scan P_Scan M_Template S_Template P_Template M_Align S_Align P_Align M_Unique S_Unique P_Unique M_Adj S_Adj P_Adj S_Transit P_Transit
  S_Match P_Match M_ArrayOps S_ArrayOps M_MeshAdj S_MeshAdj P_MeshAdj P_MeshAdj2 P_MeshAdj3 M_Build S_Build P_Build M_Simplify S_Simplify P_Simplify M_Box S_Box P_Grid P_Fill P_Box.
Local Open Scope Z_scope.

Lemma places_more dim nv coords place ne mid place' : 1 <= dim <= 3 -> 0 <= nv -> 0 <= ne -> places dim nv coords place -> (forall v, 0 <= v < nv -> place' v = place v) ->
  (forall e, 0 <= e < ne -> place' (nv + e) = mid e /\ forall a, dim <= a < 3 -> axis a (mid e) = 0) ->
  places dim (nv + ne) (coords ++ flat_map (fun e => map (fun j => axis j (mid e)) (zrange dim)) (zrange ne)) place'.
Proof.
  intros Hd Hn He [HL HP] H1 H2. assert (forall e, 0 <= e < ne -> zlen (map (fun j => axis j (mid e)) (zrange dim)) = dim) as HR by (intros; rewrite zlen_map, zlen_zrange; lia). split.
  - rewrite zlen_app, HL, (rows_len _ dim) by assumption. ring.
  - intros v a Hv. destruct (Z_lt_dec v nv) as [L|L].
    + rewrite H1 by lia. destruct (HP v a ltac:(lia)) as [A B]. split; [|exact B]. intros Ha. specialize (A Ha). rewrite zget_app_l; [exact A|]. apply zget_bounds in A. lia.
    + destruct (H2 (v - nv) ltac:(lia)) as [A B]. replace (nv + (v - nv)) with v in A by ring. rewrite A. split; [|apply B]. intros Ha. rewrite zget_app_r by nia. rewrite HL.
      replace (v * dim + a - nv * dim) with ((v - nv) * dim + a) by ring. rewrite (rows_get _ dim) by (assumption || lia). rewrite zget_map, zget_zrange by exact Ha. reflexivity.
Qed.
Lemma concat_pieces {A} (g : Z -> list (list A)) l : concat (map (fun q => concat (g q)) l) = concat (flat_map g l).
Proof. rewrite flat_map_concat_map, <- concat_twice, map_map. reflexivity. Qed.

(** ** Squares *)
Definition sym2_pieces : list (list Z) := [[4; 0; 1]; [4; 1; 2]; [4; 2; 3]; [4; 3; 0]].
Definition sym2_off (p : Z) : point := if p =? 4 then (1, 1, 0) else twice (corner p).
Lemma sym2_checked : table_ok OMEGA_H_SIMPLEX 2 (map (map sym2_off) sym2_pieces) = true /\ pieces_ok OMEGA_H_SIMPLEX 2 (map (map sym2_off) sym2_pieces) = true.
Proof. split; vm_compute; reflexivity. Qed.
Section squares.
Context (nx ny : Z).
Hypothesis Hnx : 0 < nx.
Hypothesis Hny : 0 < ny.
Let nv := wide 2 0 nx * wide 2 1 ny * wide 2 2 1.
Let nc := nx * ny * 1.
Definition sym2_vert (c p : Z) : Z := if p =? 4 then nv + c else vert 2 nx ny c p.
Definition sym2_place (v : Z) : point := if v <? nv then vplace 2 nx ny v else plus (base nx ny (v - nv)) (1, 1, 0).
Definition sym2_elements : list Z := concat (layout_rows nx ny 1 sym2_pieces sym2_vert).
Lemma nv2_pos : 0 < nv. Proof. apply nv_pos; lia. Qed.
Lemma sym2_fills : proper_elements OMEGA_H_SIMPLEX 2 sym2_elements (nv + nc) /\ forall T, topology_of OMEGA_H_SIMPLEX 2 sym2_elements (nv + nc) T -> fills_box (n nx ny 1) T sym2_place.
Proof.
  destruct sym2_checked as [C1 C2]. pose proof nv2_pos as HN. assert (0 < nc) as HC by (unfold nc; nia).
  assert (forall c p, 0 <= c < nx * ny * 1 -> In p (concat sym2_pieces) -> 0 <= sym2_vert c p < nv + nc /\ sym2_place (sym2_vert c p) = plus (base nx ny c) (sym2_off p)) as HX.
  { intros c p Hc Hp. unfold sym2_vert, sym2_off, sym2_place. destruct (Z.eqb_spec p 4) as [->|N4].
    - fold nc in Hc. split; [lia|]. destruct (Z.ltb_spec (nv + c) nv); [lia|]. replace (nv + c - nv) with c by ring. reflexivity.
    - assert (0 <= p < 2 ^ 2) as Bp by (cbn in Hp; change (2 ^ 2) with 4; lia). destruct (vert_place 2 nx ny 1) with (c := c) (p := p) as [A B]; try lia. fold nv in A. split; [lia|]. destruct (Z.ltb_spec (vert 2 nx ny c p) nv); [|lia]. exact B. }
  assert (forall v a, 0 <= v < nv + nc -> 0 <= a < 2 -> 0 <= axis a (sym2_place v) <= 2 * n nx ny 1 a) as HI.
  { intros v a Hv Ha. unfold sym2_place. destruct (Z.ltb_spec v nv); [apply vplace_inside with (dim := 2) (nz := 1); (lia || unfold nv in *; lia)|].
    pose proof (cell_range nx ny 1 (v - nv) Hnx Hny ltac:(unfold nc in *; lia)) as R. unfold base. destruct (cell_of nx ny (v - nv)) as [[i j] k]. cbn [twice plus]. assert (a = 0 \/ a = 1) as [->| ->] by lia; cbn [axis n]; lia. }
  assert (forall v w, 0 <= v < nv + nc -> 0 <= w < nv + nc -> sym2_place v = sym2_place w -> v = w) as HA.
  { intros v w Hv Hw E. unfold sym2_place in E. destruct (Z.ltb_spec v nv), (Z.ltb_spec w nv).
    - refine (vplace_apart 2 nx ny 1 _ _ _ _ _ E); lia.
    - apply (f_equal (axis 0)) in E. rewrite axis_plus in E. unfold vplace, base in E. rewrite !axis_twice in E. change (axis 0 (1, 1, 0)) with 1 in E. lia.
    - apply (f_equal (axis 0)) in E. rewrite axis_plus in E. unfold vplace, base in E. rewrite !axis_twice in E. change (axis 0 (1, 1, 0)) with 1 in E. lia.
    - assert (v - nv = w - nv) as K; [|lia]. apply (cell_inj nx ny); try assumption. apply (plus_inj (1, 1, 0)). destruct (base nx ny (v - nv)) as [[a b] d], (base nx ny (w - nv)) as [[a' b'] d']. cbn [plus] in *. injection E as E1 E2 E3. f_equal; [f_equal|]; lia. }
  split.
  - eapply (layout_proper OMEGA_H_SIMPLEX 2 nx ny 1 (nv + nc) sym2_pieces sym2_off sym2_vert sym2_place); try assumption; try lia.
  - eapply (layout_fills OMEGA_H_SIMPLEX 2 nx ny 1 (nv + nc) sym2_pieces sym2_off sym2_vert sym2_place); try assumption; try lia.
Qed.
Lemma quads_row T e row : topology_of OMEGA_H_HYPERCUBE 2 (plain_elements OMEGA_H_HYPERCUBE 2 nx ny 1) nv T -> row_is 4 (t_verts T 2) e row -> 0 <= e < nc /\ row = map (vert 2 nx ny e) [0; 1; 2; 3].
Proof.
  intros (V & F & D & NV & EV & _) HR. rewrite EV, (box_cells 2 nx ny 1 4 eq_refl) in HR. assert (0 <= e < nc) as Be. { eapply (row_is_range 4); [lia| |exact HR]. apply rows_len; [reflexivity|unfold nc; nia]. } split; [exact Be|].
  apply (row_is_unique 4 _ e row _ HR). split; [reflexivity|]. intros j Hj. exists (vert 2 nx ny e j). split; [apply row_read; lia|]. change [0; 1; 2; 3] with (zrange 4). rewrite zget_map, zget_zrange by exact Hj. reflexivity.
Qed.
Lemma sym2_outcome c be T p : loops_covered be -> topology_of OMEGA_H_HYPERCUBE 2 (plain_elements OMEGA_H_HYPERCUBE 2 nx ny 1) nv T -> mesh_of T (b_mesh (p_built p)) -> places 2 nv (p_coords p) (vplace 2 nx ny) ->
  exists coords, (forall c', tris_from_quads_symmetric c c' be p = build_from_elems_and_coords c' be OMEGA_H_SIMPLEX 2 sym2_elements coords) /\ places 2 (nv + nc) coords sym2_place.
Proof.
  intros HB HT HM HP. pose proof HT as (V & F & D & NV & EV & _). pose proof (mesh_ready T _ V HM) as R. pose proof nv2_pos as HN. assert (0 < nc) as HC by (unfold nc; nia).
  assert (t_nents T 2 = nc) as N2. { destruct (v_verts T V 2 ltac:(lia)) as (L & _). rewrite F, EV, (box_cells 2 nx ny 1 4 eq_refl), (rows_len _ 4) in L; [|reflexivity|nia]. change (element_degree OMEGA_H_HYPERCUBE 2 0) with 4 in L. unfold nc. lia. }
  destruct (average_ok T c (b_mesh (p_built p)) 2 2 (p_coords p) (vplace 2 nx ny) (fun e => plus (base nx ny e) (1, 1, 0)) V R D ltac:(lia)) as (m1 & E1 & R1).
  { rewrite NV. exact HP. }
  { rewrite F. change (element_degree OMEGA_H_HYPERCUBE 2 0) with 4. intros e row j HR Hj. destruct (quads_row T e row HT HR) as [Be ->]. cbn [map zsum fold_right].
    assert (forall q, 0 <= q < 4 -> vplace 2 nx ny (vert 2 nx ny e q) = plus (base nx ny e) (twice (corner q))) as VP by (intros q Hq; refine (proj2 (vert_place 2 nx ny 1 _ _ _ _ _ _ e q Be Hq)); lia).
    rewrite !VP by lia. rewrite !axis_plus. assert (j = 0 \/ j = 1) as [->| ->] by lia; change (corner 0) with (0, 0, 0); change (corner 1) with (1, 0, 0); change (corner 2) with (1, 1, 0); change (corner 3) with (0, 1, 0); rewrite !axis_twice; cbn [axis]; lia. }
  destruct (down_answer T c m1 2 0 V R1 ltac:(lia) ltac:(lia)) as (m2 & d & E2 & R2 & M2). unfold means_down in M2. cbn [Z.eqb] in M2. subst d.
  eexists. split.
  - intros c'. unfold tris_from_quads_symmetric. unfold bindo at 1. rewrite E1. cbn [bind fst snd]. unfold bindo at 1. rewrite E2. cbn [bind fst snd adj_ab2b]. rewrite (ready_nents T _ 2 R) by lia. rewrite (ready_nents T _ 0 R) by lia. rewrite NV, N2.
    rewrite (proj2 (tabulate_ok nc _ (map (fun q => concat (map (map (sym2_vert q)) sym2_pieces)) (zrange nc)) ltac:(lia))).
    + cbn [bind]. rewrite concat_pieces. reflexivity.
    + split; [rewrite zlen_map, zlen_zrange; lia|]. intros q Hq. rewrite zget_map, zget_zrange by exact Hq. cbn [bind]. eexists. split; [|reflexivity].
      rewrite (read_row 4 (t_verts T 2) q (vert 2 nx ny q)); [reflexivity|]. intros i Hi. rewrite EV, (box_cells 2 nx ny 1 4 eq_refl). apply row_read; lia.
  - apply (places_more 2 nv _ (vplace 2 nx ny)); try lia; [exact HP| |].
    + intros v Hv. unfold sym2_place. destruct (Z.ltb_spec v nv); [reflexivity|lia].
    + intros e He. unfold sym2_place. destruct (Z.ltb_spec (nv + e) nv); [lia|]. replace (nv + e - nv) with e by ring. split; [reflexivity|]. intros a Ha. assert (a = 2) as -> by lia. rewrite axis_plus. unfold base. rewrite axis_twice.
      pose proof (cell_range nx ny 1 e Hnx Hny ltac:(unfold nc in *; lia)) as K. destruct (cell_of nx ny e) as [[i j] k]. cbn [axis]. lia.
Qed.
End squares.
