(** Meshes of boxes: cubes split around their centres and those of their faces. *)
From Verif Require Import Prelude S_Sort M_Sort S_Scan P_Scan M_Template S_Template P_Template M_Align S_Align P_Align M_Unique S_Unique P_Unique M_Adj S_Adj P_Adj S_Transit P_Transit
  S_Match P_Match M_ArrayOps S_ArrayOps M_MeshAdj S_MeshAdj P_MeshAdj P_MeshAdj2 P_MeshAdj3 M_Build S_Build P_Build M_Simplify S_Simplify P_Simplify M_Box S_Box P_Grid P_Fill P_Box P_Box2.
From Coq Require Import Permutation.
Local Open Scope Z_scope.

(** corners 0 to 7, centres of faces 8 to 13, the centre 14 *)
Definition face_centre (w : Z) : point := nth (Z.to_nat w) [(1, 1, 0); (1, 0, 1); (2, 1, 1); (1, 2, 1); (0, 1, 1); (1, 1, 2)] (0, 0, 0).
Definition cube_face (w : Z) : list Z := side_verts OMEGA_H_HYPERCUBE 3 2 w.
Definition sym3_pieces : list (list Z) :=
  Eval vm_compute in flat_map (fun w => map (fun i => [8 + w; hypercube_down_template 3 2 w (Z.rem (i + 1) 4); hypercube_down_template 3 2 w i; 14]) (zrange 4)) (zrange 6).
Definition sym3_off (p : Z) : point := if p <? 8 then twice (corner p) else if p <? 14 then face_centre (p - 8) else (1, 1, 1).
Lemma sym3_table : table_ok OMEGA_H_SIMPLEX 3 (map (map sym3_off) sym3_pieces) = true. Proof. vm_compute. reflexivity. Qed.
Lemma sym3_pieces_ok : pieces_ok OMEGA_H_SIMPLEX 3 (map (map sym3_off) sym3_pieces) = true. Proof. vm_compute. reflexivity. Qed.
Definition face_points (w : Z) : list point := map (fun p => twice (corner p)) (cube_face w).
Definition centres_ok : bool :=
  forallb (fun w => (zlen (cube_face w) =? 4) && forallb (fun p => (0 <=? p) && (p <? 8)) (cube_face w) &&
    forallb (fun a => (zsum (map (axis a) (face_points w)) =? 4 * axis a (face_centre w)) && (0 <=? axis a (face_centre w)) && (axis a (face_centre w) <=? 2)) (zrange 3) &&
    existsb (fun a => axis a (face_centre w) mod 2 =? 0) (zrange 3) && existsb (fun a => axis a (face_centre w) mod 2 =? 1) (zrange 3) &&
    forallb (fun w' => negb (forallb (fun a => axis a (minus (face_centre w) (face_centre w')) mod 2 =? 0) (zrange 3)) ||
      polygonb (face_points w) (map (plus (minus (face_centre w) (face_centre w'))) (face_points w'))) (zrange 6)) (zrange 6).
Lemma centres_checked : centres_ok = true. Proof. vm_compute. reflexivity. Qed.
Lemma centre_facts w : 0 <= w < 6 -> zlen (cube_face w) = 4 /\ (forall p, In p (cube_face w) -> 0 <= p < 8) /\
  (forall a, 0 <= a < 3 -> zsum (map (axis a) (face_points w)) = 4 * axis a (face_centre w) /\ 0 <= axis a (face_centre w) <= 2) /\
  (exists a, 0 <= a < 3 /\ axis a (face_centre w) mod 2 = 0) /\ (exists a, 0 <= a < 3 /\ axis a (face_centre w) mod 2 = 1) /\
  forall w', 0 <= w' < 6 -> (forall a, 0 <= a < 3 -> axis a (minus (face_centre w) (face_centre w')) mod 2 = 0) ->
    same_polygon (face_points w) (map (plus (minus (face_centre w) (face_centre w'))) (face_points w')).
Proof.
  intros Hw. pose proof centres_checked as K. unfold centres_ok in K. rewrite forallb_forall in K. specialize (K w (proj2 (in_zrange _ _) Hw)).
  apply andb_true_iff in K as [K K6]. apply andb_true_iff in K as [K K5]. apply andb_true_iff in K as [K K4]. apply andb_true_iff in K as [K K3]. apply andb_true_iff in K as [K1 K2].
  split; [apply Z.eqb_eq, K1|]. split; [intros p Hp; rewrite forallb_forall in K2; specialize (K2 p Hp); lia|]. split.
  { intros a Ha. rewrite forallb_forall in K3. specialize (K3 a (proj2 (in_zrange _ _) Ha)). lia. } split.
  { apply existsb_exists in K4 as (a & Ha & E). exists a. apply in_zrange in Ha. split; [exact Ha|lia]. } split.
  { apply existsb_exists in K5 as (a & Ha & E). exists a. apply in_zrange in Ha. split; [exact Ha|lia]. }
  intros w' Hw' HE. rewrite forallb_forall in K6. specialize (K6 w' (proj2 (in_zrange _ _) Hw')). apply orb_true_iff in K6 as [K6|K6]; [|apply polygonb_ok, K6].
  apply negb_true_iff in K6. exfalso. rewrite (proj2 (forallb_forall _ _)) in K6; [discriminate|]. intros a Ha. apply in_zrange in Ha. apply Z.eqb_eq, HE, Ha.
Qed.
Lemma polygon_perm {A} (l m : list A) : same_polygon l m -> Permutation l m.
Proof.
  intros [(a & b & -> & ->)|(a & b & E & ->)]; [apply Permutation_app_comm|]. transitivity (rev l); [apply Permutation_rev|]. rewrite E. apply Permutation_app_comm.
Qed.
Lemma zsum_perm l m : Permutation l m -> zsum l = zsum m.
Proof. unfold zsum. induction 1; cbn [fold_right]; lia. Qed.

Section cubes.
Context (nx ny nz : Z) (T : topology).
Hypothesis Hnx : 0 < nx.
Hypothesis Hny : 0 < ny.
Hypothesis Hnz : 0 < nz.
Let nv := wide 3 0 nx * wide 3 1 ny * wide 3 2 nz.
Let nc := nx * ny * nz.
Let cells := plain_elements OMEGA_H_HYPERCUBE 3 nx ny nz.
Hypothesis HT : topology_of OMEGA_H_HYPERCUBE 3 cells nv T.
Let place := vplace 3 nx ny.
Let hq := adj_ab2b (t_down T 3).
Let nq := t_nents T 2.
Lemma nv3_pos : 0 < nv. Proof. apply nv_pos; lia. Qed.
Lemma nc3_pos : 0 < nc. Proof. unfold nc. apply Z.mul_pos_pos; [apply Z.mul_pos_pos|]; assumption. Qed.
Lemma nq_pos : 0 <= nq. Proof. destruct HT as (V & _ & D & _). apply (v_nents T V). lia. Qed.
Lemma cells_eq : cells = flat_map (fun c => map (vert 3 nx ny c) (zrange 8)) (zrange nc). Proof. apply box_cells. reflexivity. Qed.
Lemma cells_len : zlen cells = nc * 8. Proof. rewrite cells_eq. apply rows_len; [reflexivity|pose proof nc3_pos; lia]. Qed.
Lemma nhexes : t_nents T 3 = nc.
Proof. destruct HT as (V & F & D & _ & EV & _). destruct (v_verts T V 3 ltac:(lia)) as (L & _). rewrite F, EV, cells_len in L. change (element_degree OMEGA_H_HYPERCUBE 3 0) with 8 in L. lia. Qed.
Lemma cell_row e row : row_is 8 cells e row -> 0 <= e < nc /\ row = map (vert 3 nx ny e) (zrange 8).
Proof.
  intros HR. assert (0 <= e < nc) as Be by (eapply (row_is_range 8); [lia|apply cells_len|exact HR]). split; [exact Be|].
  apply (row_is_unique 8 _ e row _ HR). split; [reflexivity|]. intros j Hj. exists (vert 3 nx ny e j). split; [rewrite cells_eq; apply row_read; lia|]. rewrite zget_map, zget_zrange by exact Hj. reflexivity.
Qed.
Lemma cell_here e : 0 <= e < nc -> row_is 8 cells e (map (vert 3 nx ny e) (zrange 8)).
Proof. intros He. split; [reflexivity|]. intros j Hj. exists (vert 3 nx ny e j). split; [rewrite cells_eq; apply row_read; lia|]. rewrite zget_map, zget_zrange by exact Hj. reflexivity. Qed.
Lemma cell_side e w row : is_side OMEGA_H_HYPERCUBE 3 2 cells e w row -> 0 <= e < nc /\ 0 <= w < 6 /\ row = map (vert 3 nx ny e) (cube_face w).
Proof.
  intros (hrow & HR & Hw & HF). change (element_degree OMEGA_H_HYPERCUBE 3 0) with 8 in HR. change (element_degree OMEGA_H_HYPERCUBE 3 2) with 6 in Hw. destruct (cell_row e hrow HR) as [Be ->]. split; [exact Be|]. split; [exact Hw|].
  fold (cube_face w) in HF. clear HR. induction HF as [|v y l l' Hy HF IH]; [reflexivity|]. cbn [map]. f_equal; [|exact IH]. pose proof (zget_bounds _ _ _ Hy) as B. change (zlen (map (vert 3 nx ny e) (zrange 8))) with 8 in B. rewrite zget_map, zget_zrange in Hy by exact B. cbn [bind] in Hy. congruence.
Qed.
Lemma side_here e w : 0 <= e < nc -> 0 <= w < 6 -> is_side OMEGA_H_HYPERCUBE 3 2 cells e w (map (vert 3 nx ny e) (cube_face w)).
Proof. intros He Hw. destruct (side_exists OMEGA_H_HYPERCUBE 3 2 cells e w _ ltac:(lia) ltac:(lia) (cell_here e He) Hw) as (row & HS). destruct (cell_side e w row HS) as (_ & _ & ->). exact HS. Qed.
Lemma corner_place e p : 0 <= e < nc -> 0 <= p < 8 -> 0 <= vert 3 nx ny e p < nv /\ place (vert 3 nx ny e p) = plus (base nx ny e) (twice (corner p)).
Proof. intros He Hp. apply vert_place; (assumption || lia). Qed.
Lemma face_places e w : 0 <= e < nc -> 0 <= w < 6 -> map place (map (vert 3 nx ny e) (cube_face w)) = map (plus (base nx ny e)) (face_points w).
Proof. intros He Hw. unfold face_points. rewrite !map_map. apply map_ext_in. intros p Hp. apply corner_place; [exact He|]. apply (centre_facts w Hw), Hp. Qed.

(** where the centre of a face is *)
Definition mid (s : Z) : point := let row := map place (tuple (t_verts T 2) 4 s) in (zsum (map (axis 0) row) / 4, zsum (map (axis 1) row) / 4, zsum (map (axis 2) row) / 4).
Lemma sum_moved a b pts : zsum (map (axis a) (map (plus b) pts)) = zlen pts * axis a b + zsum (map (axis a) pts).
Proof. induction pts as [|p pts IH]; [reflexivity|]. cbn [map zsum fold_right]. unfold zsum in IH. rewrite IH, axis_plus, zlen_cons. lia. Qed.
Lemma side_sum e w row a : is_side OMEGA_H_HYPERCUBE 3 2 cells e w row -> 0 <= a < 3 -> zsum (map (axis a) (map place row)) = 4 * axis a (plus (base nx ny e) (face_centre w)).
Proof.
  intros HS Ha. destruct (cell_side e w row HS) as (He & Hw & ->). rewrite face_places, sum_moved by assumption. destruct (centre_facts w Hw) as (L & _ & S & _). destruct (S a Ha) as [-> _]. rewrite axis_plus.
  unfold face_points. rewrite zlen_map, L. lia.
Qed.
Lemma sides_len : zlen (t_verts T 2) = nq * 4.
Proof. destruct HT as (V & F & D & _). destruct (v_verts T V 2 ltac:(lia)) as (L & _). rewrite F in L. exact L. Qed.
Lemma mid_is e w s : 0 <= e < nc -> 0 <= w < 6 -> zget hq (e * 6 + w) = Ok s -> 0 <= s < nq /\ mid s = plus (base nx ny e) (face_centre w) /\
  forall row a, row_is 4 (t_verts T 2) s row -> 0 <= a < 3 -> zsum (map (axis a) (map place row)) = 4 * axis a (mid s).
Proof.
  intros He Hw Hs. pose proof (side_here e w He Hw) as HS. destruct (topo_use OMEGA_H_HYPERCUBE 3 cells nv T HT e w _ HS) as (s' & Z1 & rb & R1 & P1). fold hq in Z1. change (element_degree OMEGA_H_HYPERCUBE 3 (3 - 1)) with 6 in Z1.
  assert (s' = s) as -> by congruence. change (3 - 1) with 2 in R1. change (element_degree OMEGA_H_HYPERCUBE 2 0) with 4 in R1.
  pose proof (row_is_range 4 _ nq s rb ltac:(lia) sides_len R1) as Bs. split; [exact Bs|].
  assert (forall row a, row_is 4 (t_verts T 2) s row -> 0 <= a < 3 -> zsum (map (axis a) (map place row)) = 4 * axis a (plus (base nx ny e) (face_centre w))) as K.
  { intros row a HR Ha. assert (row = rb) as -> by (eapply row_is_unique; eassumption). rewrite <- (side_sum e w _ a HS Ha). apply zsum_perm, Permutation_map, Permutation_map, polygon_perm, P1. }
  assert (mid s = plus (base nx ny e) (face_centre w)) as M.
  { pose proof (row_is_tuple 4 (t_verts T 2) nq s ltac:(lia) sides_len Bs) as RT. unfold mid. rewrite (K _ 0 RT), (K _ 1 RT), (K _ 2 RT) by lia. rewrite !(Z.mul_comm 4), !Z.div_mul by lia. destruct (plus (base nx ny e) (face_centre w)) as [[? ?] ?]. reflexivity. }
  split; [exact M|]. rewrite M. exact K.
Qed.
Lemma mid_exists s : 0 <= s < nq -> exists e w, 0 <= e < nc /\ 0 <= w < 6 /\ zget hq (e * 6 + w) = Ok s.
Proof.
  intros Hs. pose proof (row_is_tuple 4 (t_verts T 2) nq s ltac:(lia) sides_len Hs) as RT. destruct (topo_side OMEGA_H_HYPERCUBE 3 cells nv T HT s (tuple (t_verts T 2) 4 s)) as (e & w & HS & HZ).
  - discriminate.
  - exact Hs.
  - destruct HT as (_ & F & D & _). unfold side_row. rewrite D, F. exact RT.
  - exists e, w. destruct (cell_side e w _ HS) as (A & B & _). auto.
Qed.
Lemma base_even e a : axis a (base nx ny e) mod 2 = 0.
Proof. unfold base. rewrite axis_twice, Z.mul_comm. apply Z.mod_mul. lia. Qed.
Lemma mid_apart s s' : 0 <= s < nq -> 0 <= s' < nq -> mid s = mid s' -> s = s'.
Proof.
  intros Hs Hs' E. destruct (mid_exists s Hs) as (e & w & He & Hw & Z1), (mid_exists s' Hs') as (e' & w' & He' & Hw' & Z2).
  destruct (mid_is e w s He Hw Z1) as (_ & M1 & _), (mid_is e' w' s' He' Hw' Z2) as (_ & M2 & _). rewrite M1, M2 in E.
  assert (forall a, 0 <= a < 3 -> axis a (minus (face_centre w) (face_centre w')) = axis a (base nx ny e') - axis a (base nx ny e)) as D.
  { intros a Ha. apply (f_equal (axis a)) in E. rewrite !axis_plus in E. rewrite axis_minus. lia. }
  destruct (centre_facts w Hw) as (L & HI & _ & _ & _ & P). specialize (P w' Hw').
  assert (same_polygon (map place (map (vert 3 nx ny e) (cube_face w))) (map place (map (vert 3 nx ny e') (cube_face w')))) as Q.
  { rewrite !face_places by assumption. replace (map (plus (base nx ny e')) (face_points w')) with (map (plus (base nx ny e)) (map (plus (minus (face_centre w) (face_centre w'))) (face_points w'))).
    - apply polygon_map, P. intros a Ha. rewrite (D a Ha), Zminus_mod, !base_even. reflexivity.
    - rewrite map_map. apply map_ext. intros q. apply point_axes. intros a Ha. rewrite !axis_plus, (D a Ha). ring. }
  apply polygon_unmap in Q.
  - pose proof (topo_unique OMEGA_H_HYPERCUBE 3 cells nv T HT e w e' w' _ _ s (side_here e w He Hw) (side_here e' w' He' Hw') Q Z1) as Z3. change (element_degree OMEGA_H_HYPERCUBE 3 (3 - 1)) with 6 in Z3. fold hq in Z3. congruence.
  - intros x y Hx Hy Exy. unfold place in Exy. refine (vplace_apart 3 nx ny nz _ _ _ _ _ Exy); assumption.
Qed.

Definition sym3_vert (c p : Z) : Z := if p <? 8 then vert 3 nx ny c p else if p <? 14 then nv + nth (Z.to_nat (c * 6 + (p - 8))) hq 0 else nv + nq + c.
Definition sym3_place (v : Z) : point := if v <? nv then place v else if v <? nv + nq then mid (v - nv) else plus (base nx ny (v - nv - nq)) (1, 1, 1).
Definition sym3_elements : list Z := concat (layout_rows nx ny nz sym3_pieces sym3_vert).
Lemma hq_len : zlen hq = nc * 6.
Proof. unfold hq. rewrite (topo_len OMEGA_H_HYPERCUBE 3 cells nv T HT). rewrite nhexes. reflexivity. Qed.
Lemma hq_get c w : 0 <= c < nc -> 0 <= w < 6 -> zget hq (c * 6 + w) = Ok (nth (Z.to_nat (c * 6 + w)) hq 0).
Proof. intros Hc Hw. destruct (zget_in_range hq (c * 6 + w)) as (y & E); [rewrite hq_len; lia|]. rewrite E. apply zget_ok in E as [_ E]. rewrite (nth_error_nth _ _ 0 E). reflexivity. Qed.
Lemma parity v a : 0 <= v < nv + nq + nc ->
  (v < nv -> 0 <= a < 3 -> axis a (sym3_place v) mod 2 = 0) /\ (nv + nq <= v -> 0 <= a < 3 -> axis a (sym3_place v) mod 2 = 1).
Proof.
  intros Hv. unfold sym3_place. split; intros B Ha; pose proof nq_pos.
  - destruct (Z.ltb_spec v nv); [|lia]. unfold place. rewrite vplace_even by exact Ha. rewrite Z.mul_comm. apply Z.mod_mul. lia.
  - destruct (Z.ltb_spec v nv); [lia|]. destruct (Z.ltb_spec v (nv + nq)); [lia|]. rewrite axis_plus, Zplus_mod, base_even. assert (a = 0 \/ a = 1 \/ a = 2) as [->|[->| ->]] by lia; reflexivity.
Qed.
Lemma parity_mid v : nv <= v < nv + nq -> (exists a, 0 <= a < 3 /\ axis a (sym3_place v) mod 2 = 0) /\ (exists a, 0 <= a < 3 /\ axis a (sym3_place v) mod 2 = 1).
Proof.
  intros Hv. unfold sym3_place. destruct (Z.ltb_spec v nv); [lia|]. destruct (Z.ltb_spec v (nv + nq)); [|lia]. destruct (mid_exists (v - nv) ltac:(lia)) as (e & w & He & Hw & Z1). destruct (mid_is e w _ He Hw Z1) as (_ & -> & _).
  destruct (centre_facts w Hw) as (_ & _ & _ & (a & Ha & A) & (b & Hb & B) & _). split; [exists a|exists b]; (split; [assumption|]); rewrite axis_plus, Zplus_mod, base_even; [rewrite A|rewrite B]; reflexivity.
Qed.
Lemma sym3_apart v w : 0 <= v < nv + nq + nc -> 0 <= w < nv + nq + nc -> sym3_place v = sym3_place w -> v = w.
Proof.
  intros Hv Hw E. pose proof nq_pos as Nq.
  assert (v < nv \/ nv <= v < nv + nq \/ nv + nq <= v) as Cv by lia. assert (w < nv \/ nv <= w < nv + nq \/ nv + nq <= w) as Cw by lia.
  destruct Cv as [Cv|[Cv|Cv]], Cw as [Cw|[Cw|Cw]].
  - unfold sym3_place in E. destruct (Z.ltb_spec v nv); [|lia]. destruct (Z.ltb_spec w nv); [|lia]. refine (vplace_apart 3 nx ny nz _ _ _ _ _ E); assumption.
  - destruct (parity_mid w Cw) as (_ & a & Ha & P). rewrite <- E in P. rewrite (proj1 (parity v a Hv) Cv Ha) in P. discriminate.
  - pose proof (proj1 (parity v 0 Hv) Cv ltac:(lia)) as P. rewrite E, (proj2 (parity w 0 Hw) Cw) in P by lia. discriminate.
  - destruct (parity_mid v Cv) as (_ & a & Ha & P). rewrite E in P. rewrite (proj1 (parity w a Hw) Cw Ha) in P. discriminate.
  - unfold sym3_place in E. destruct (Z.ltb_spec v nv); [lia|]. destruct (Z.ltb_spec w nv); [lia|]. destruct (Z.ltb_spec v (nv + nq)); [|lia]. destruct (Z.ltb_spec w (nv + nq)); [|lia]. apply mid_apart in E; lia.
  - destruct (parity_mid v Cv) as ((a & Ha & P) & _). rewrite E in P. rewrite (proj2 (parity w a Hw) Cw Ha) in P. discriminate.
  - pose proof (proj1 (parity w 0 Hw) Cw ltac:(lia)) as P. rewrite <- E, (proj2 (parity v 0 Hv) Cv) in P by lia. discriminate.
  - destruct (parity_mid w Cw) as ((a & Ha & P) & _). rewrite <- E in P. rewrite (proj2 (parity v a Hv) Cv Ha) in P. discriminate.
  - unfold sym3_place in E. destruct (Z.ltb_spec v nv); [lia|]. destruct (Z.ltb_spec w nv); [lia|]. destruct (Z.ltb_spec v (nv + nq)); [lia|]. destruct (Z.ltb_spec w (nv + nq)); [lia|].
    assert (v - nv - nq = w - nv - nq) as K; [|lia]. apply (cell_inj nx ny); try assumption. apply point_axes. intros a Ha. apply (f_equal (axis a)) in E. rewrite !axis_plus in E. lia.
Qed.
Lemma base_inside e q a : 0 <= e < nc -> 0 <= a < 3 -> 0 <= axis a q <= 2 -> 0 <= axis a (plus (base nx ny e) q) <= 2 * n nx ny nz a.
Proof.
  intros He Ha Hq. rewrite axis_plus. unfold base. rewrite axis_twice. pose proof (cell_range nx ny nz e Hnx Hny He) as R. destruct (cell_of nx ny e) as [[i j] k]. assert (a = 0 \/ a = 1 \/ a = 2) as [->|[->| ->]] by lia; cbn [n axis] in *; lia.
Qed.
Lemma sym3_inside v a : 0 <= v < nv + nq + nc -> 0 <= a < 3 -> 0 <= axis a (sym3_place v) <= 2 * n nx ny nz a.
Proof.
  intros Hv Ha. unfold sym3_place. destruct (Z.ltb_spec v nv); [refine (vplace_inside 3 nx ny nz _ _ _ _ _ _ v a _ Ha); (assumption || lia || (fold nv; lia))|]. destruct (Z.ltb_spec v (nv + nq)).
  - destruct (mid_exists (v - nv) ltac:(lia)) as (e & w & He & Hw & Z1). destruct (mid_is e w _ He Hw Z1) as (_ & -> & _). apply base_inside; try assumption. apply (centre_facts w Hw), Ha.
  - apply base_inside; [lia|exact Ha|]. assert (a = 0 \/ a = 1 \/ a = 2) as [->|[->| ->]] by lia; cbn; lia.
Qed.
Lemma sym3_vert_place c p : 0 <= c < nc -> In p (concat sym3_pieces) -> 0 <= sym3_vert c p < nv + nq + nc /\ sym3_place (sym3_vert c p) = plus (base nx ny c) (sym3_off p).
Proof.
  intros Hc Hp. pose proof nq_pos as Nq. pose proof nv3_pos as Nv. assert (0 <= p < 15) as Bp.
  { assert (forallb (fun p => (0 <=? p) && (p <? 15)) (concat sym3_pieces) = true) as K by (vm_compute; reflexivity). rewrite forallb_forall in K. specialize (K p Hp). lia. }
  unfold sym3_vert, sym3_off. destruct (Z.ltb_spec p 8).
  - destruct (corner_place c p Hc ltac:(lia)) as [A B]. split; [lia|]. unfold sym3_place. destruct (Z.ltb_spec (vert 3 nx ny c p) nv); [exact B|lia].
  - destruct (Z.ltb_spec p 14).
    + pose proof (hq_get c (p - 8) Hc ltac:(lia)) as Z1. set (s := nth (Z.to_nat (c * 6 + (p - 8))) hq 0) in *. destruct (mid_is c (p - 8) s Hc ltac:(lia) Z1) as (Bs & M & _). split; [lia|]. unfold sym3_place.
      destruct (Z.ltb_spec (nv + s) nv); [lia|]. destruct (Z.ltb_spec (nv + s) (nv + nq)); [|lia]. replace (nv + s - nv) with s by ring. exact M.
    + split; [lia|]. unfold sym3_place. destruct (Z.ltb_spec (nv + nq + c) nv); [lia|]. destruct (Z.ltb_spec (nv + nq + c) (nv + nq)); [lia|]. replace (nv + nq + c - nv - nq) with c by ring. reflexivity.
Qed.
Lemma sym3_fills : proper_elements OMEGA_H_SIMPLEX 3 sym3_elements (nv + nq + nc) /\ forall S, topology_of OMEGA_H_SIMPLEX 3 sym3_elements (nv + nq + nc) S -> fills_box (n nx ny nz) S sym3_place.
Proof.
  pose proof sym3_table as C1. pose proof sym3_pieces_ok as C2. pose proof nq_pos as Nq. pose proof nv3_pos as Nv. pose proof nc3_pos as Nc.
  pose proof sym3_vert_place as HX. pose proof sym3_inside as HI. pose proof sym3_apart as HA. split.
  - eapply (layout_proper OMEGA_H_SIMPLEX 3 nx ny nz (nv + nq + nc) sym3_pieces sym3_off sym3_vert sym3_place); try assumption; try lia.
  - eapply (layout_fills OMEGA_H_SIMPLEX 3 nx ny nz (nv + nq + nc) sym3_pieces sym3_off sym3_vert sym3_place); try assumption; try lia.
Qed.
Lemma sym3_outcome c be p : loops_covered be -> mesh_of T (b_mesh (p_built p)) -> places 3 nv (p_coords p) place ->
  exists coords, (forall c', tets_from_hexes_symmetric c c' be p = build_from_elems_and_coords c' be OMEGA_H_SIMPLEX 3 sym3_elements coords) /\ places 3 (nv + nq + nc) coords sym3_place.
Proof.
  intros HB HM HP. pose proof HT as (V & F & D & NV & EV & _). pose proof (mesh_ready T _ V HM) as R. pose proof nq_pos as Nq. pose proof nv3_pos as Nv. pose proof nc3_pos as Nc. pose proof nhexes as N3.
  destruct (average_ok T c (b_mesh (p_built p)) 2 3 (p_coords p) place mid V R D ltac:(lia)) as (m1 & E1 & R1).
  { rewrite NV. exact HP. }
  { rewrite F. change (element_degree OMEGA_H_HYPERCUBE 2 0) with 4. intros e row j HR Hj. pose proof (row_is_range 4 _ nq e row ltac:(lia) sides_len HR) as Be. destruct (mid_exists e Be) as (h & w & Hh & Hw & Z1).
    destruct (mid_is h w e Hh Hw Z1) as (_ & _ & K). rewrite <- (K row j HR Hj), map_map. reflexivity. }
  destruct (average_ok T c m1 3 3 (p_coords p) place (fun e => plus (base nx ny e) (1, 1, 1)) V R1 D ltac:(lia)) as (m2 & E2 & R2).
  { rewrite NV. exact HP. }
  { rewrite F, EV. change (element_degree OMEGA_H_HYPERCUBE 3 0) with 8. intros e row j HR Hj. destruct (cell_row e row HR) as [Be ->]. change (zrange 8) with [0; 1; 2; 3; 4; 5; 6; 7]. cbn [map zsum fold_right].
    assert (forall q, 0 <= q < 8 -> place (vert 3 nx ny e q) = plus (base nx ny e) (twice (corner q))) as VP by (intros q Hq; apply corner_place; assumption).
    rewrite !VP by lia. rewrite !axis_plus, !axis_twice. change (corner 0) with (0, 0, 0). change (corner 1) with (1, 0, 0). change (corner 2) with (1, 1, 0). change (corner 3) with (0, 1, 0).
    change (corner 4) with (0, 0, 1). change (corner 5) with (1, 0, 1). change (corner 6) with (1, 1, 1). change (corner 7) with (0, 1, 1). assert (j = 0 \/ j = 1 \/ j = 2) as [->|[->| ->]] by lia; cbn [axis]; lia. }
  destruct (down_answer T c m2 3 0 V R2 ltac:(lia) ltac:(lia)) as (m3 & d & E3 & R3 & M3). unfold means_down in M3. cbn [Z.eqb] in M3. subst d.
  assert (ask_adj c m3 3 2 = Ok (Some (m3, t_down T 3))) as E4.
  { pose proof (i_dim T m3 (proj1 R3)) as ID. apply ask_cached; try lia; try (apply (proj2 R3); lia). apply (i_down T m3 (proj1 R3) 3); [lia|]. apply (proj2 R3). lia. }
  eexists. split.
  - intros c'. unfold tets_from_hexes_symmetric. unfold bindo at 1. rewrite E1. cbn [bind fst snd]. unfold bindo at 1. rewrite E2. cbn [bind fst snd]. unfold bindo at 1. rewrite E3. cbn [bind fst snd adj_ab2b].
    unfold ask_down. cbn [Z.ltb Z.compare Pos.compare Pos.compare_cont check bind]. unfold bindo at 1. rewrite E4. cbn [bind fst snd]. fold hq.
    rewrite (ready_nents T _ 2 R), (ready_nents T _ 3 R), (ready_nents T _ 0 R) by lia. rewrite NV, N3. fold nq.
    rewrite (proj2 (tabulate_ok nc _ (map (fun q => concat (map (map (sym3_vert q)) sym3_pieces)) (zrange nc)) ltac:(lia))).
    + cbn [bind]. rewrite concat_pieces. reflexivity.
    + split; [rewrite zlen_map, zlen_zrange; lia|]. intros q Hq. rewrite zget_map, zget_zrange by exact Hq. cbn [bind]. eexists. split; [|reflexivity].
      rewrite (read_row 8 (t_verts T 3) q (vert 3 nx ny q)); [|intros i Hi; rewrite EV, cells_eq; apply row_read; lia]. cbn [bind].
      rewrite (read_row 6 hq q (fun w => nth (Z.to_nat (q * 6 + w)) hq 0)); [|intros w Hw; apply hq_get; assumption]. cbn [bind]. reflexivity.
  - rewrite app_assoc. fold nq. apply (places_more 3 (nv + nq) _ (fun v => if v <? nv then place v else mid (v - nv))); try lia.
    + apply (places_more 3 nv _ place); try lia; [exact HP| |].
      * intros v Hv. destruct (Z.ltb_spec v nv); [reflexivity|lia].
      * intros e He. destruct (Z.ltb_spec (nv + e) nv); [lia|]. replace (nv + e - nv) with e by ring. split; [reflexivity|lia].
    + intros v Hv. unfold sym3_place. destruct (Z.ltb_spec v nv); [reflexivity|]. destruct (Z.ltb_spec v (nv + nq)); [reflexivity|lia].
    + intros e He. unfold sym3_place. destruct (Z.ltb_spec (nv + nq + e) nv); [lia|]. destruct (Z.ltb_spec (nv + nq + e) (nv + nq)); [lia|]. replace (nv + nq + e - nv - nq) with e by ring. split; [reflexivity|lia].
Qed.
End cubes.
