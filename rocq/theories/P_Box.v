(** Meshes of boxes: proofs. *)
From Verif Require Import Prelude S_Sort M_Sort S_Scan P_Scan M_Template S_Template P_Template M_Align S_Align P_Align M_Unique S_Unique P_Unique M_Adj S_Adj P_Adj S_Transit P_Transit
  S_Match P_Match M_ArrayOps S_ArrayOps M_MeshAdj S_MeshAdj P_MeshAdj2 P_MeshAdj3 M_Build S_Build P_Build M_Simplify S_Simplify P_Simplify M_Box S_Box P_Grid P_Fill.
Local Open Scope Z_scope.

(** ** The vertices of the grid *)
Definition wide (dim a n : Z) : Z := if a <? dim then n + 1 else 1.
Section vertices.
Context (dim nx ny nz : Z).
Hypothesis Hdim : 1 <= dim <= 3.
Hypothesis Hnx : 0 < nx.
Hypothesis Hny : 0 < ny.
Hypothesis Hnz : 0 < nz.
Hypothesis Uy : dim < 2 -> ny = 1.
Hypothesis Uz : dim < 3 -> nz = 1.
Let mx := wide dim 0 nx.
Let my := wide dim 1 ny.
Let mz := wide dim 2 nz.
Let nc := nx * ny * nz.
Let nv := mx * my * mz.
Definition vert (c p : Z) : Z := cell_number mx my (plus (cell_of nx ny c) (corner p)).
Definition vplace (v : Z) : point := base mx my v.
Lemma wide_pos : 0 < mx /\ 0 < my /\ 0 < mz.
Proof. unfold mx, my, mz, wide. destruct (0 <? dim), (1 <? dim), (2 <? dim); lia. Qed.
Lemma wide_cell : (0 < dim -> mx = nx + 1) /\ (1 < dim -> my = ny + 1) /\ (2 < dim -> mz = nz + 1) /\ (dim <= 1 -> my = 1) /\ (dim <= 2 -> mz = 1).
Proof. unfold mx, my, mz, wide. destruct (Z.ltb_spec 0 dim), (Z.ltb_spec 1 dim), (Z.ltb_spec 2 dim); lia. Qed.
Lemma corner_axes p : 0 <= p < 2 ^ dim -> forall a, 0 <= a < 3 -> 0 <= axis a (corner p) <= 1 /\ (dim <= a -> axis a (corner p) = 0).
Proof.
  intros Hp a Ha. assert (forallb (fun d => forallb (fun p => forallb (fun a => (0 <=? axis a (corner p)) && (axis a (corner p) <=? 1) && ((a <? d) || (axis a (corner p) =? 0))) (zrange 3)) (zrange (2 ^ d))) (zrange 4) = true) as K by (vm_compute; reflexivity).
  rewrite forallb_forall in K. specialize (K dim ltac:(apply in_zrange; lia)). rewrite forallb_forall in K. specialize (K p ltac:(apply in_zrange; lia)). rewrite forallb_forall in K. specialize (K a ltac:(apply in_zrange; lia)). lia.
Qed.
Lemma vert_place c p : 0 <= c < nc -> 0 <= p < 2 ^ dim -> 0 <= vert c p < nv /\ vplace (vert c p) = plus (base nx ny c) (twice (corner p)).
Proof.
  intros Hc Hp. pose proof (cell_range nx ny nz c Hnx Hny Hc) as R. pose proof (corner_axes p Hp) as A. pose proof wide_cell as W. unfold vert, vplace, base. destruct (cell_of nx ny c) as [[i j] k]. destruct (corner p) as [[a b] d].
  pose proof (A 0 ltac:(lia)) as A0. pose proof (A 1 ltac:(lia)) as A1. pose proof (A 2 ltac:(lia)) as A2. cbn [axis] in A0, A1, A2. cbn [plus].
  assert (0 <= i + a < mx /\ 0 <= j + b < my /\ 0 <= k + d < mz) as (B0 & B1 & B2) by lia. split; [apply number_range; assumption|]. rewrite cell_of_number by assumption. cbn [twice plus]. f_equal; [f_equal|]; ring.
Qed.
Lemma vplace_inside v a : 0 <= v < nv -> 0 <= a < dim -> 0 <= axis a (vplace v) <= 2 * n nx ny nz a.
Proof.
  intros Hv Ha. pose proof wide_pos as (P0 & P1 & P2). pose proof (cell_range mx my mz v P0 P1 Hv) as R. pose proof wide_cell as W. unfold vplace, base. destruct (cell_of mx my v) as [[i j] k]. cbn [twice].
  assert (a = 0 \/ a = 1 \/ a = 2) as [->|[->| ->]] by lia; cbn [axis n]; lia.
Qed.
Lemma vplace_zero v a : 0 <= v < nv -> dim <= a < 3 -> axis a (vplace v) = 0.
Proof.
  intros Hv Ha. pose proof wide_pos as (P0 & P1 & P2). pose proof (cell_range mx my mz v P0 P1 Hv) as R. pose proof wide_cell as W. unfold vplace, base. destruct (cell_of mx my v) as [[i j] k]. cbn [twice].
  assert (a = 1 \/ a = 2) as [->| ->] by lia; cbn [axis]; lia.
Qed.
Lemma vplace_even v a : 0 <= a < 3 -> axis a (vplace v) = 2 * axis a (cell_of mx my v).
Proof. intros _. unfold vplace, base. apply axis_twice. Qed.
Lemma vplace_apart v w : vplace v = vplace w -> v = w.
Proof. pose proof wide_pos as (P0 & P1 & P2). apply cell_inj; assumption. Qed.
Lemma nv_pos : 0 < nv. Proof. pose proof wide_pos as (P0 & P1 & P2). unfold nv. apply Z.mul_pos_pos; [apply Z.mul_pos_pos|]; assumption. Qed.
Lemma verts_used : dim = 1 -> forall v, 0 <= v < nv -> In v (concat (layout_rows nx ny nz [[0; 1]] vert)).
Proof.
  intros E v Hv. pose proof wide_cell as W. assert (nv = nx + 1) as En by (unfold nv; replace mx with (nx + 1) by lia; replace my with 1 by lia; replace mz with 1 by lia; ring).
  assert (ny = 1 /\ nz = 1) as [Ey Ez] by (split; [apply Uy|apply Uz]; lia). rewrite En in Hv.
  assert (forall c p, 0 <= c < nx -> 0 <= p <= 1 -> vert c p = c + p) as VX.
  { intros c p Hc Hp. unfold vert, cell_of. rewrite Ey. rewrite Z.mod_1_r, Z.div_1_r, (Z.div_small c nx), (Z.mod_small c nx) by lia. replace my with 1 by lia.
    assert (p = 0 \/ p = 1) as [->| ->] by lia; [change (corner 0) with (0, 0, 0)|change (corner 1) with (1, 0, 0)]; cbn [plus cell_number]; lia. }
  apply in_concat. assert (exists c p, 0 <= c < nx /\ 0 <= p <= 1 /\ v = c + p) as (c & p & Hc & Hp & ->). { destruct (Z_lt_dec v nx); [exists v, 0; lia|exists (v - 1), 1; lia]. }
  exists (map (vert c) [0; 1]). split.
  - unfold layout_rows. apply in_flat_map. exists c. split; [apply in_zrange; rewrite Ey, Ez; lia|left; reflexivity].
  - rewrite <- VX by assumption. apply in_map. assert (p = 0 \/ p = 1) as [->| ->] by lia; cbn; auto.
Qed.

(** pieces made of corners of a cell *)
Lemma corner_pieces f ps : table_ok f dim (map (map (fun p => twice (corner p))) ps) = true -> pieces_ok f dim (map (map (fun p => twice (corner p))) ps) = true ->
  forallb (fun p => (0 <=? p) && (p <? 2 ^ dim)) (concat ps) = true -> (dim = 1 -> ps = [[0; 1]]) ->
  let ev2v := concat (layout_rows nx ny nz ps vert) in
  proper_elements f dim ev2v nv /\ forall T, topology_of f dim ev2v nv T -> fills_box (n nx ny nz) T vplace.
Proof.
  intros HT HP HC H1 ev2v. assert (forall c p, 0 <= c < nx * ny * nz -> In p (concat ps) -> 0 <= vert c p < nv /\ vplace (vert c p) = plus (base nx ny c) (twice (corner p))) as HX.
  { intros c p Hc Hp. rewrite forallb_forall in HC. specialize (HC _ Hp). apply vert_place; [exact Hc|lia]. }
  assert (forall v w, 0 <= v < nv -> 0 <= w < nv -> vplace v = vplace w -> v = w) as HA by (intros v w _ _; apply vplace_apart).
  assert (dim = 1 -> forall v, 0 <= v < nv -> In v (concat (layout_rows nx ny nz ps vert))) as HU by (intros E v Hv; rewrite (H1 E); apply verts_used; assumption).
  pose proof vplace_inside as HI. pose proof nv_pos as HN. split.
  - eapply (layout_proper f dim nx ny nz nv ps (fun p => twice (corner p)) vert vplace); try assumption. apply Z.lt_le_incl, HN.
  - eapply (layout_fills f dim nx ny nz nv ps (fun p => twice (corner p)) vert vplace); assumption.
Qed.
End vertices.

(** ** The grids of the model *)
Lemma cells_rows {A} (g : Z -> list A) l : concat (flat_map (fun c => [g c]) l) = flat_map g l.
Proof. induction l as [|c l IH]; [reflexivity|]. cbn [flat_map app concat]. rewrite IH. reflexivity. Qed.
Lemma flat_map_ext_in {A B} (g h : A -> list B) l : (forall y, In y l -> g y = h y) -> flat_map g l = flat_map h l.
Proof. induction l as [|y l IH]; intros H; [reflexivity|]. cbn [flat_map]. rewrite H by (left; reflexivity). rewrite IH by (intros; apply H; right; assumption). reflexivity. Qed.

Ltac lists := repeat (apply (f_equal2 (@cons Z)); [ring|]); reflexivity.
Lemma box_1d nx : 0 < nx -> exists coords, make_1d_box nx = (flat_map (fun c => map (vert 1 nx 1 c) (zrange 2)) (zrange nx), coords) /\ places 1 (nx + 1) coords (vplace 1 nx 1).
Proof.
  intros Hx. unfold make_1d_box. eexists. split; [f_equal|].
  - apply flat_map_ext_in. intros q Hq. apply in_zrange in Hq. change (zrange 2) with [0; 1]. cbn [map]. unfold vert, cell_of, wide. change (0 <? 1) with true. change (1 <? 1) with false. cbn iota.
    rewrite Z.mod_1_r, Z.div_1_r, (Z.div_small q nx), (Z.mod_small q nx), Z.rem_small by lia. change (corner 0) with (0, 0, 0). change (corner 1) with (1, 0, 0). cbn [plus cell_number]. lists.
  - split.
    + rewrite (rows_len _ 1); [ring|reflexivity|lia].
    + intros v a Hv. split; intros Ha.
      * assert (a = 0) as -> by lia. rewrite (rows_get _ 1) by (reflexivity || lia). unfold vplace, base, cell_of, wide. change (0 <? 1) with true. cbn iota. rewrite Z.rem_small, Z.mod_small by lia. cbn [twice axis]. rewrite (Z.mul_comm 2). reflexivity.
      * apply (vplace_zero 1 nx 1 1); try lia. unfold wide. change (0 <? 1) with true. change (1 <? 1) with false. change (2 <? 1) with false. cbn iota. lia.
Qed.
Lemma box_2d nx ny : 0 < nx -> 0 < ny -> exists coords, make_2d_box nx ny = (flat_map (fun c => map (vert 2 nx ny c) (zrange 4)) (zrange (nx * ny)), coords) /\ places 2 ((nx + 1) * (ny + 1)) coords (vplace 2 nx ny).
Proof.
  intros Hx Hy. unfold make_2d_box. eexists. split; [f_equal|].
  - apply flat_map_ext_in. intros q Hq. apply in_zrange in Hq. change (zrange 4) with [0; 1; 2; 3]. cbn [map]. unfold vert, cell_of, wide. change (0 <? 2) with true. change (1 <? 2) with true. cbn iota.
    assert (0 <= q / nx < ny) as Hj by (split; [apply Z.div_pos; lia|apply Z.div_lt_upper_bound; lia]).
    rewrite Z.rem_mod_nonneg, Z.quot_div_nonneg, (Z.mod_small (q / nx) ny), (Z.div_small (q / nx) ny) by lia.
    change (corner 0) with (0, 0, 0). change (corner 1) with (1, 0, 0). change (corner 2) with (1, 1, 0). change (corner 3) with (0, 1, 0). cbn [plus cell_number]. lists.
  - split.
    + rewrite (rows_len _ 2); [ring|reflexivity|nia].
    + intros v a Hv. assert (0 <= v / (nx + 1) < ny + 1) as Hj by (split; [apply Z.div_pos; lia|apply Z.div_lt_upper_bound; lia]). split; intros Ha.
      * rewrite (rows_get _ 2) by (reflexivity || lia). unfold vplace, base, cell_of, wide. change (0 <? 2) with true. change (1 <? 2) with true. cbn iota.
        rewrite Z.rem_mod_nonneg, Z.quot_div_nonneg, (Z.mod_small (v / (nx + 1)) (ny + 1)) by lia. assert (a = 0 \/ a = 1) as [->| ->] by lia; cbn [twice axis]; rewrite (Z.mul_comm 2); reflexivity.
      * apply (vplace_zero 2 nx ny 1); try lia. unfold wide. change (0 <? 2) with true. change (1 <? 2) with true. change (2 <? 2) with false. cbn iota. lia.
Qed.
Lemma split_3d mx my h : 0 < mx -> 0 < my -> 0 <= h ->
  Z.rem (Z.rem h (mx * my)) mx = h mod mx /\ Z.quot (Z.rem h (mx * my)) mx = (h / mx) mod my /\ Z.quot h (mx * my) = h / mx / my.
Proof.
  intros Hx Hy Hh. assert (0 < mx * my) as Hxy by nia. pose proof (Z.mod_pos_bound h (mx * my) Hxy) as B. rewrite (Z.rem_mod_nonneg h), (Z.quot_div_nonneg h) by lia.
  rewrite Z.rem_mod_nonneg, Z.quot_div_nonneg by lia. rewrite Z.rem_mul_r by lia. rewrite (Z.mul_comm mx), Z.mod_add, Z.div_add, Z.mod_mod, Z.div_div by lia.
  pose proof (Z.mod_pos_bound h mx Hx). rewrite (Z.div_small (h mod mx)) by lia. split; [reflexivity|]. split; [lia|reflexivity].
Qed.
Lemma box_3d nx ny nz : 0 < nx -> 0 < ny -> 0 < nz ->
  exists coords, make_3d_box nx ny nz = (flat_map (fun c => map (vert 3 nx ny c) (zrange 8)) (zrange (nx * ny * nz)), coords) /\ places 3 ((nx + 1) * (ny + 1) * (nz + 1)) coords (vplace 3 nx ny).
Proof.
  intros Hx Hy Hz. unfold make_3d_box. eexists. split; [f_equal|].
  - apply flat_map_ext_in. intros q Hq. apply in_zrange in Hq. change (zrange 8) with [0; 1; 2; 3; 4; 5; 6; 7]. cbn [map]. unfold vert, cell_of, wide. change (0 <? 3) with true. change (1 <? 3) with true. cbn iota.
    destruct (split_3d nx ny q Hx Hy ltac:(lia)) as (-> & -> & ->).
    change (corner 0) with (0, 0, 0). change (corner 1) with (1, 0, 0). change (corner 2) with (1, 1, 0). change (corner 3) with (0, 1, 0).
    change (corner 4) with (0, 0, 1). change (corner 5) with (1, 0, 1). change (corner 6) with (1, 1, 1). change (corner 7) with (0, 1, 1). cbn [plus cell_number]. lists.
  - split.
    + rewrite (rows_len _ 3); [ring|reflexivity|]. apply Z.mul_nonneg_nonneg; [apply Z.mul_nonneg_nonneg|]; lia.
    + intros v a Hv. split; intros Ha; [|lia].
      rewrite (rows_get _ 3) by (reflexivity || lia). unfold vplace, base, cell_of, wide. change (0 <? 3) with true. change (1 <? 3) with true. cbn iota.
      destruct (split_3d (nx + 1) (ny + 1) v ltac:(lia) ltac:(lia) ltac:(lia)) as (-> & -> & ->). assert (a = 0 \/ a = 1 \/ a = 2) as [->|[->| ->]] by lia; cbn [twice axis]; rewrite (Z.mul_comm 2); reflexivity.
Qed.

(** ** Building with coordinates *)
Lemma mesh_ready T m : valid_topology T -> mesh_of T m -> ready T m.
Proof. intros V (m0 & es & E0 & HB & HR & HC). split; [|exact HC]. eapply run_inv; [exact V|eapply start_inv; eassumption|exact HB|exact HR]. Qed.
Lemma ready_nents T m d : ready T m -> 0 <= d <= t_dim T -> a_nents m d = t_nents T d.
Proof. intros [I C] Hd. apply (i_nents T m I d Hd), C, Hd. Qed.
Lemma placed_outcome c be f dim ev2v coords nv : loops_covered be -> 0 < nv -> proper_elements f dim ev2v nv -> zlen coords = nv * dim ->
  exists o, build_from_elems2verts c (be (nv - 1)) f dim ev2v nv = Ok o /\
    build_from_elems_and_coords c be f dim ev2v coords = Ok (match o with Some b => Some (mk_placed b coords) | None => None end) /\
    forall b, o = Some b -> exists T, topology_of f dim ev2v nv T /\ mesh_of T (b_mesh b) /\ forall d, 0 <= d <= dim -> b_globals b d = Some (zrange (t_nents T d)).
Proof.
  intros HB Hn HP HL. pose proof HP as (Hd & _). destruct (built_total c (be (nv - 1)) f dim ev2v nv HP (HB (nv - 1) ltac:(lia))) as (o & Eo). exists o. split; [exact Eo|].
  assert (forall b, o = Some b -> exists T, topology_of f dim ev2v nv T /\ mesh_of T (b_mesh b) /\ forall d, 0 <= d <= dim -> b_globals b d = Some (zrange (t_nents T d))) as HT.
  { intros b ->. destruct (built_right _ _ _ _ _ _ _ HP (HB (nv - 1) ltac:(lia)) Eo) as (T & A & B & C). eauto. }
  split; [|exact HT]. unfold build_from_elems_and_coords. rewrite HL, Z.quot_mul by lia. unfold bindo. rewrite Eo. cbn [bind]. destruct o as [b|]; [|reflexivity].
  destruct (HT b eq_refl) as (T & (V & F & D & NV & _) & HM & _). rewrite (ready_nents T _ 0 (mesh_ready _ _ V HM) ltac:(lia)), NV, Z.eqb_refl. reflexivity.
Qed.

(** ** The plain boxes *)
Definition twice_corners (ps : list (list Z)) : list (list point) := map (map (fun p => twice (corner p))) ps.
Definition plain_pieces (f : family) (dim : Z) : list (list Z) :=
  match f with
  | OMEGA_H_HYPERCUBE => [zrange (2 ^ dim)]
  | OMEGA_H_SIMPLEX => match dim with 1 => [[0; 1]] | 2 => [[0; 1; 2]; [2; 3; 0]] | _ => [[0; 2; 3; 6]; [0; 3; 7; 6]; [0; 7; 4; 6]; [0; 5; 6; 4]; [1; 5; 6; 0]; [1; 6; 2; 0]] end end.
Lemma plain_checked f dim : 1 <= dim <= 3 -> table_ok f dim (twice_corners (plain_pieces f dim)) = true /\ pieces_ok f dim (twice_corners (plain_pieces f dim)) = true /\
  forallb (fun p => (0 <=? p) && (p <? 2 ^ dim)) (concat (plain_pieces f dim)) = true /\ (dim = 1 -> plain_pieces f dim = [[0; 1]]).
Proof. intros H. assert (dim = 1 \/ dim = 2 \/ dim = 3) as [->|[->| ->]] by lia; destruct f; (split; [vm_compute; reflexivity|]); (split; [vm_compute; reflexivity|]); (split; [vm_compute; reflexivity|]); (lia || reflexivity). Qed.

Section plain.
Context (f : family) (dim nx ny nz : Z).
Hypothesis Hdim : 1 <= dim <= 3.
Hypothesis Hnx : 0 < nx.
Hypothesis Hny : 0 < ny.
Hypothesis Hnz : 0 < nz.
Hypothesis Uy : dim < 2 -> ny = 1.
Hypothesis Uz : dim < 3 -> nz = 1.
Let nv := wide dim 0 nx * wide dim 1 ny * wide dim 2 nz.
Definition plain_elements : list Z := concat (layout_rows nx ny nz (plain_pieces f dim) (vert dim nx ny)).
Lemma plain_fills : proper_elements f dim plain_elements nv /\ forall T, topology_of f dim plain_elements nv T -> fills_box (n nx ny nz) T (vplace dim nx ny).
Proof. destruct (plain_checked f dim Hdim) as (A & B & C & D). apply corner_pieces; assumption. Qed.
End plain.

Lemma vert_step dim nx ny c p : vert dim nx ny c p = vert dim nx ny c 0 + (let '(a, b, d) := corner p in (d * wide dim 1 ny + b) * wide dim 0 nx + a).
Proof. unfold vert. destruct (cell_of nx ny c) as [[i j] k]. change (corner 0) with (0, 0, 0). destruct (corner p) as [[a b] d]. cbn [plus cell_number]. ring. Qed.
Lemma quad_plain nx ny c : 0 < nx -> 0 < ny -> quad_pieces (vert 2 nx ny c) = plain_pieces OMEGA_H_SIMPLEX 2.
Proof.
  intros Hx Hy. unfold quad_pieces. destruct (argmin_ok (vert 2 nx ny c) 4 ltac:(lia)) as (_ & B & M). assert (argmin (vert 2 nx ny c) 4 = 0) as ->; [|reflexivity].
  specialize (M 0 ltac:(lia)). set (m := argmin (vert 2 nx ny c) 4) in *. clearbody m. rewrite (vert_step 2 nx ny c m) in M. unfold wide in M. change (0 <? 2) with true in M. change (1 <? 2) with true in M. cbn iota in M.
  assert (m = 0 \/ m = 1 \/ m = 2 \/ m = 3) as [->|[->|[->| ->]]] by lia; [reflexivity|change (corner 1) with (1, 0, 0) in M|change (corner 2) with (1, 1, 0) in M|change (corner 3) with (0, 1, 0) in M]; cbn iota in M; lia.
Qed.
Lemma hex_plain nx ny c : 0 < nx -> 0 < ny -> hex_tets (vert 3 nx ny c) = plain_pieces OMEGA_H_SIMPLEX 3.
Proof.
  intros Hx Hy. unfold hex_tets. destruct (argmin_ok (vert 3 nx ny c) 8 ltac:(lia)) as (_ & B & M).
  set (X := vert 3 nx ny c) in *. assert (exists A D, 1 < A /\ 1 < D /\ X 1 = X 0 + 1 /\ X 2 = X 0 + A + 1 /\ X 3 = X 0 + A /\ X 4 = X 0 + D /\ X 5 = X 0 + D + 1 /\ X 6 = X 0 + D + A + 1 /\ X 7 = X 0 + D + A) as (A & D & HA & HD & E1 & E2 & E3 & E4 & E5 & E6 & E7).
  { exists (nx + 1), ((ny + 1) * (nx + 1)). split; [lia|]. split; [nia|]. unfold X. rewrite (vert_step 3 nx ny c 1), (vert_step 3 nx ny c 2), (vert_step 3 nx ny c 3), (vert_step 3 nx ny c 4), (vert_step 3 nx ny c 5), (vert_step 3 nx ny c 6), (vert_step 3 nx ny c 7).
    unfold wide. change (0 <? 3) with true. change (1 <? 3) with true. cbn iota. change (corner 1) with (1, 0, 0). change (corner 2) with (1, 1, 0). change (corner 3) with (0, 1, 0).
    change (corner 4) with (0, 0, 1). change (corner 5) with (1, 0, 1). change (corner 6) with (1, 1, 1). change (corner 7) with (0, 1, 1). cbn iota. repeat split; ring. }
  assert (argmin X 8 = 0) as ->.
  { specialize (M 0 ltac:(lia)). set (m := argmin X 8) in *. clearbody m. assert (m = 0 \/ m = 1 \/ m = 2 \/ m = 3 \/ m = 4 \/ m = 5 \/ m = 6 \/ m = 7) as K by lia. destruct K as [->|[->|[->|[->|[->|[->|[->| ->]]]]]]]; lia. }
  assert (diags X 0 = [true; true; true]) as ->; [|reflexivity]. unfold diags. change (far_faces 0) with [[6; 5; 1; 2]; [6; 2; 3; 7]; [6; 7; 4; 5]]. cbn [map]. unfold first_diagonal. rewrite E1, E2, E3, E4, E5, E6, E7.
  f_equal; [|f_equal; [|f_equal]]; apply Z.ltb_lt; lia.
Qed.
Lemma row_read k nc (x : Z -> Z -> Z) c p : 0 <= k -> 0 <= c < nc -> 0 <= p < k -> zget (flat_map (fun c => map (x c) (zrange k)) (zrange nc)) (c * k + p) = Ok (x c p).
Proof. intros Hk Hc Hp. rewrite (rows_get _ k); [rewrite zget_map, zget_zrange by exact Hp; reflexivity|intros; rewrite zlen_map, zlen_zrange; lia|exact Hc|exact Hp]. Qed.
Lemma box_tris nx ny : 0 < nx -> 0 < ny -> tris_from_quads (flat_map (fun c => map (vert 2 nx ny c) (zrange 4)) (zrange (nx * ny))) = Ok (plain_elements OMEGA_H_SIMPLEX 2 nx ny 1).
Proof.
  intros Hx Hy. rewrite (quads_ok (nx * ny) _ (vert 2 nx ny)).
  - unfold plain_elements, layout_rows. rewrite Z.mul_1_r. f_equal. f_equal. apply flat_map_ext_in. intros c _. rewrite quad_plain by assumption. reflexivity.
  - nia.
  - rewrite (rows_len _ 4); [reflexivity|intros; reflexivity|nia].
  - intros. apply row_read; lia.
Qed.
Lemma box_tets nx ny nz : 0 < nx -> 0 < ny -> 0 < nz -> tets_from_hexes (flat_map (fun c => map (vert 3 nx ny c) (zrange 8)) (zrange (nx * ny * nz))) = Ok (plain_elements OMEGA_H_SIMPLEX 3 nx ny nz).
Proof.
  intros Hx Hy Hz. assert (0 < nx * ny * nz) as Hc by (apply Z.mul_pos_pos; [apply Z.mul_pos_pos|]; assumption). rewrite (hexes_ok (nx * ny * nz) _ (vert 3 nx ny)).
  - unfold plain_elements, layout_rows. f_equal. f_equal. apply flat_map_ext_in. intros c _. rewrite hex_plain by assumption. reflexivity.
  - lia.
  - rewrite (rows_len _ 8); [reflexivity|intros; reflexivity|lia].
  - intros. apply row_read; lia.
Qed.
Lemma box_cells dim nx ny nz k : k = 2 ^ dim -> plain_elements OMEGA_H_HYPERCUBE dim nx ny nz = flat_map (fun c => map (vert dim nx ny c) (zrange k)) (zrange (nx * ny * nz)).
Proof. intros ->. unfold plain_elements, layout_rows. cbn [plain_pieces map]. apply cells_rows. Qed.
Lemma box_edges f nx : plain_elements f 1 nx 1 1 = flat_map (fun c => map (vert 1 nx 1 c) (zrange 2)) (zrange nx).
Proof. unfold plain_elements, layout_rows. replace (plain_pieces f 1) with [zrange 2] by (destruct f; reflexivity). cbn [map]. rewrite cells_rows, !Z.mul_1_r. reflexivity. Qed.

(** ** Asking downward *)
Lemma down_finishes c : forall fuel m from to, to < from -> ask_within fuel c m from to <> Ok None.
Proof.
  induction fuel as [|fuel IH]; intros m from to Hlt; [discriminate|]. rewrite ask_step. intros E. apply bind_ok in E as (? & _ & E). apply bind_ok in E as (? & _ & E).
  destruct (a_adjs m from to); [discriminate|]. unfold bindo in E. apply bind_ok in E as (o & Eo & E). destruct o as [r|]; [discriminate|]. clear E. unfold derive_adj in Eo.
  apply bind_ok in Eo as (? & _ & Eo). apply bind_ok in Eo as (? & _ & Eo). cbv zeta in Eo. destruct (Z.ltb_spec from to); [lia|]. destruct (Z.ltb_spec to from); [|lia]. apply bind_ok in Eo as (? & Ec & Eo).
  unfold check in Ec. destruct (Z.ltb_spec (to + 1) from); [|discriminate]. unfold bindo in Eo. apply bind_ok in Eo as (o1 & E1 & Eo). destruct o1 as [r1|]; [|refine (IH _ _ _ _ E1); lia].
  apply bind_ok in Eo as (o2 & E2 & Eo). destruct o2 as [r2|]; [|refine (IH _ _ _ _ E2); lia]. apply bind_ok in Eo as (? & _ & Eo). discriminate.
Qed.
Lemma down_answer T c m from to : valid_topology T -> ready T m -> 0 <= to < from -> from <= t_dim T -> exists m' d, ask_adj c m from to = Ok (Some (m', d)) /\ ready T m' /\ means_down T from to d.
Proof.
  intros V R Ht Hf. pose proof (v_dim T V) as HD. assert (answerable T from to) as HA by (split; [lia|]; split; [lia|]; left; lia).
  destruct (ask_good T V false c ltac:(discriminate) 6 m from to R HA) as (o & E & _). { unfold rank. destruct (Z.ltb_spec to from); lia. }
  destruct o as [[m' d]|]; [|exfalso; refine (down_finishes c 6 m from to _ E); lia]. exists m', d. split; [exact E|]. destruct (ask_inv T V c 6 m from to (m', d) (proj1 R) E) as [I VA]. cbn [fst snd] in *. split.
  - split; [exact I|]. intros k Hk. destruct (ask_keeps 6 c m from to _ E) as (_ & N & _). cbn [fst] in N. rewrite N. apply R, Hk.
  - destruct (val_means T V from to HA) as (a & Ea & M). assert (a = d) as -> by congruence. unfold means in M. destruct (Z.ltb_spec to from); [exact M|lia].
Qed.

(** ** Means *)
Lemma foldM_sum (F G : Z -> res Z) g ks : (forall k, In k ks -> exists v, F k = Ok v /\ G v = Ok (g k)) ->
  forall s, foldM (fun comp k => v <- F k ;; x <- G v ;; Ok (comp + x)) ks s = Ok (s + zsum (map g ks)).
Proof.
  induction ks as [|k ks IH]; intros H s; cbn [foldM map zsum fold_right]; [f_equal; lia|]. destruct (H k) as (v & E1 & E2); [left; reflexivity|]. rewrite E1. cbn [bind]. rewrite E2. cbn [bind]. rewrite IH by (intros; apply H; right; assumption). unfold zsum. f_equal. lia.
Qed.
Lemma nth_row (row : list Z) k : zlen row = k -> map (fun i => nth (Z.to_nat i) row 0) (zrange k) = row.
Proof.
  intros <-. apply list_eq_zget; [rewrite zlen_map, zlen_zrange; [reflexivity|apply zlen_nonneg]|]. intros i Hi. rewrite zlen_map, zlen_zrange in Hi by apply zlen_nonneg. rewrite zget_map, zget_zrange by exact Hi. cbn [bind].
  destruct (zget_in_range row i Hi) as (y & Ey). rewrite Ey. apply zget_ok in Ey as [_ Ey]. rewrite (nth_error_nth _ _ 0 Ey). reflexivity.
Qed.
Lemma average_ok T c m d dim coords place mid : valid_topology T -> ready T m -> t_dim T = dim -> 1 <= d <= dim -> places dim (t_nents T 0) coords place ->
  (forall e row j, row_is (element_degree (t_family T) d 0) (t_verts T d) e row -> 0 <= j < dim -> zsum (map (fun v => axis j (place v)) row) = element_degree (t_family T) d 0 * axis j (mid e)) ->
  exists m', average_field c m d dim coords = Ok (Some (m', flat_map (fun e => map (fun j => axis j (mid e)) (zrange dim)) (zrange (t_nents T d)))) /\ ready T m'.
Proof.
  intros V R D Hd [HL HP] HM. pose proof (v_dim T V) as HD. unfold average_field. rewrite HL, Z.rem_mul by lia. cbn [Z.eqb check bind].
  destruct (down_answer T c m d 0 V R ltac:(lia) ltac:(lia)) as (m' & a & E & R' & M). unfold bindo at 1. rewrite E. cbn [bind fst snd]. exists m'. split; [|exact R'].
  unfold means_down in M. cbn [Z.eqb] in M. subst a. cbn [adj_ab2b]. rewrite (i_family T m (proj1 R)). rewrite (ready_nents T m d R) by lia.
  set (deg := element_degree (t_family T) d 0) in *. assert (0 < deg) as Hdeg by (apply degree_pos; lia). destruct (v_verts T V d ltac:(lia)) as (VL & _ & VB). fold deg in VL. pose proof (v_nents T V d ltac:(lia)) as VN.
  rewrite (proj2 (tabulate_ok (t_nents T d) _ (map (fun e => map (fun j => axis j (mid e)) (zrange dim)) (zrange (t_nents T d))) VN)).
  - cbn [bind]. rewrite flat_map_concat_map. reflexivity.
  - split; [rewrite zlen_map, zlen_zrange; lia|]. intros e He. rewrite zget_map, zget_zrange by exact He. cbn [bind]. eexists. split; [|reflexivity].
    pose proof (row_is_tuple deg (t_verts T d) (t_nents T d) e ltac:(lia) VL He) as HR. set (row := tuple (t_verts T d) deg e) in *. clearbody row.
    apply mapM_map_ok. intros j Hj. apply in_zrange in Hj. rewrite (foldM_sum (fun k => zget (t_verts T d) (e * deg + k)) (fun v => zget coords (v * dim + j)) (fun k => axis j (place (nth (Z.to_nat k) row 0)))).
    + cbn [bind]. replace (map (fun k => axis j (place (nth (Z.to_nat k) row 0))) (zrange deg)) with (map (fun v => axis j (place v)) row).
      * rewrite (HM e row j HR Hj), Z.add_0_l, (Z.mul_comm deg), Z.rem_mul, Z.quot_mul by lia. reflexivity.
      * rewrite <- (nth_row row deg (proj1 HR)) at 1. rewrite map_map. reflexivity.
    + intros k Hk. apply in_zrange in Hk. destruct (proj2 HR k Hk) as (v & E1 & E2). exists v. split; [exact E1|]. apply zget_ok in E2 as [_ E2]. rewrite (nth_error_nth _ _ 0 E2).
      apply HP; [|lia]. apply VB. eapply zget_In, E1.
Qed.
