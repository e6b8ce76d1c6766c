(** Meshes of boxes: all of them. *)
From Verif Require Import Prelude S_Sort M_Sort S_Scan P_Scan M_Template S_Template M_Align S_Align P_Align S_Unique P_Unique M_Adj S_Adj M_ArrayOps S_ArrayOps M_MeshAdj S_MeshAdj P_MeshAdj P_MeshAdj2 P_MeshAdj3
  M_Build S_Build P_Build M_Simplify S_Simplify P_Simplify M_Box S_Box P_Grid P_Fill P_Box P_Box2 P_Box3.
Local Open Scope Z_scope.

Lemma places_unique dim nv coords coords' place : 1 <= dim -> places dim nv coords place -> places dim nv coords' place -> coords = coords'.
Proof.
  intros Hd [L1 G1] [L0 G0]. apply list_eq_zget; [congruence|]. intros i Hi. rewrite L1 in Hi.
  assert (i = i / dim * dim + i mod dim) as Ei by (pose proof (Z.div_mod i dim ltac:(lia)); lia). pose proof (Z.mod_pos_bound i dim ltac:(lia)) as Bm.
  assert (0 <= i / dim < nv) as Bq by (split; [apply Z.div_pos; lia|apply Z.div_lt_upper_bound; lia]). rewrite Ei. rewrite (proj1 (G1 _ _ Bq) Bm), (proj1 (G0 _ _ Bq) Bm). reflexivity.
Qed.

Lemma volume_1 g : volume 1 g = g 0 * 1. Proof. reflexivity. Qed.
Lemma volume_2 g : volume 2 g = g 0 * (g 1 * 1). Proof. reflexivity. Qed.
Lemma volume_3 g : volume 3 g = g 0 * (g 1 * (g 2 * 1)). Proof. reflexivity. Qed.

(** ** One mesh *)
Section one.
Context (f : family) (dim nv : Z) (ev2v coords : list Z) (be : Z -> backend).
Hypothesis Hbe : loops_covered be.
Hypothesis Hnv : 0 < nv.
Hypothesis HP : proper_elements f dim ev2v nv.
Hypothesis HL : zlen coords = nv * dim.
Lemma one_outcome c : exists o, build_from_elems_and_coords c be f dim ev2v coords = Ok o /\
  forall p, o = Some p -> p_coords p = coords /\ exists T, topology_of f dim ev2v nv T /\ mesh_of T (b_mesh (p_built p)) /\ forall d, 0 <= d <= dim -> b_globals (p_built p) d = Some (zrange (t_nents T d)).
Proof.
  destruct (placed_outcome c be f dim ev2v coords nv Hbe Hnv HP HL) as (o & _ & E & K). eexists. split; [exact E|]. intros p Hp. destruct o as [b|]; [|discriminate]. injection Hp as <-. cbn [p_coords p_built]. split; [reflexivity|apply K; reflexivity].
Qed.
Lemma one_finishes mem : exists first second p, build_from_elems_and_coords (mk_chance mem first second (fun _ _ => false)) be f dim ev2v coords = Ok (Some p).
Proof.
  destruct (built_finishes (be (nv - 1)) f dim ev2v nv mem HP (Hbe (nv - 1) ltac:(lia))) as (first & second & b & E). exists first, second, (mk_placed b coords).
  destruct (placed_outcome (mk_chance mem first second (fun _ _ => false)) be f dim ev2v coords nv Hbe Hnv HP HL) as (o & E1 & E2 & _). rewrite E2. assert (o = Some b) as -> by congruence. reflexivity.
Qed.
End one.

(** ** The cases of build_box_internal *)
Definition centred (f : family) (ny nz : Z) (symmetric : bool) : bool := is_simplex f && symmetric && (2 <=? box_dim ny nz).
Definition gy (ny : Z) : Z := if ny =? 0 then 1 else ny.
Definition gz (ny nz : Z) : Z := if ny =? 0 then 1 else if nz =? 0 then 1 else nz.
Definition grid_nverts (nx ny nz : Z) : Z := wide (box_dim ny nz) 0 nx * wide (box_dim ny nz) 1 (gy ny) * wide (box_dim ny nz) 2 (gz ny nz).
Section box.
Context (nx ny nz : Z).
Hypothesis Hnx : 0 < nx.
Hypothesis Hny : 0 <= ny.
Hypothesis Hnz : 0 <= nz.
Let dim := box_dim ny nz.
Lemma grid_facts : 1 <= dim <= 3 /\ 0 < gy ny /\ 0 < gz ny nz /\ (dim < 2 -> gy ny = 1) /\ (dim < 3 -> gz ny nz = 1) /\ forall a, 0 <= a < dim -> n nx (gy ny) (gz ny nz) a = cells_along nx ny nz a.
Proof.
  unfold dim, box_dim, gy, gz. destruct (Z.eqb_spec ny 0); [|destruct (Z.eqb_spec nz 0)]; (split; [lia|]); (split; [lia|]); (split; [lia|]); (split; [lia|]); (split; [lia|]); intros a Ha.
  - assert (a = 0) as -> by lia. reflexivity.
  - assert (a = 0 \/ a = 1) as [->| ->] by lia; reflexivity.
  - assert (a = 0 \/ a = 1 \/ a = 2) as [->|[->| ->]] by lia; reflexivity.
Qed.
Lemma grid_nverts_pos : 0 < grid_nverts nx ny nz.
Proof. destruct grid_facts as (A & B & C & D & E & _). unfold grid_nverts. fold dim. apply nv_pos; assumption. Qed.
Lemma box_cases c c' be f symmetric : exists coords, places dim (grid_nverts nx ny nz) coords (vplace dim nx (gy ny)) /\
  build_box_internal c c' be f nx ny nz symmetric =
    if centred f ny nz symmetric then
      (p <~ build_from_elems_and_coords c be OMEGA_H_HYPERCUBE dim (plain_elements OMEGA_H_HYPERCUBE dim nx (gy ny) (gz ny nz)) coords ;;
       if dim =? 2 then tris_from_quads_symmetric c c' be p else tets_from_hexes_symmetric c c' be p)
    else build_from_elems_and_coords c be f dim (plain_elements f dim nx (gy ny) (gz ny nz)) coords.
Proof.
  unfold build_box_internal, centred, grid_nverts. fold dim. rewrite (proj2 (Z.ltb_lt 0 nx) Hnx), (proj2 (Z.leb_le 0 ny) Hny), (proj2 (Z.leb_le 0 nz) Hnz). cbn [check bind].
  unfold dim, box_dim, gy, gz. destruct (Z.eqb_spec ny 0) as [->|Ny]; [|destruct (Z.eqb_spec nz 0) as [->|Nz]].
  - destruct (box_1d nx Hnx) as (coords & E & P). exists coords. rewrite E. split.
    + unfold wide. change (0 <? 1) with true. change (1 <? 1) with false. change (2 <? 1) with false. cbn iota. rewrite !Z.mul_1_r. exact P.
    + change (2 <=? 1) with false. rewrite andb_false_r, box_edges. reflexivity.
  - destruct (box_2d nx ny Hnx ltac:(lia)) as (coords & E & P). exists coords. rewrite E. split.
    + unfold wide. change (0 <? 2) with true. change (1 <? 2) with true. change (2 <? 2) with false. cbn iota. rewrite !Z.mul_1_r. exact P.
    + change (2 <=? 2) with true. change (2 =? 2) with true. rewrite andb_true_r.
      assert (flat_map (fun c0 => map (vert 2 nx ny c0) (zrange 4)) (zrange (nx * ny)) = plain_elements OMEGA_H_HYPERCUBE 2 nx ny 1) as EH by (rewrite (box_cells 2 nx ny 1 4 eq_refl), Z.mul_1_r; reflexivity).
      destruct f, symmetric; cbn [is_simplex andb negb bind]; rewrite ?box_tris by lia; cbn [bind]; rewrite ?EH; try reflexivity;
      unfold bindo; match goal with |- context [build_from_elems_and_coords ?a ?b ?c ?d ?e ?g] => destruct (build_from_elems_and_coords a b c d e g) as [[q|]| |]; reflexivity end.
  - destruct (box_3d nx ny nz Hnx ltac:(lia) ltac:(lia)) as (coords & E & P). exists coords. rewrite E. split.
    + unfold wide. change (0 <? 3) with true. change (1 <? 3) with true. change (2 <? 3) with true. cbn iota. exact P.
    + change (2 <=? 3) with true. change (3 =? 2) with false. rewrite andb_true_r.
      assert (flat_map (fun c0 => map (vert 3 nx ny c0) (zrange 8)) (zrange (nx * ny * nz)) = plain_elements OMEGA_H_HYPERCUBE 3 nx ny nz) as EH by (rewrite (box_cells 3 nx ny nz 8 eq_refl); reflexivity).
      destruct f, symmetric; cbn [is_simplex andb negb bind]; rewrite ?box_tets by lia; cbn [bind]; rewrite ?EH; try reflexivity;
      unfold bindo; match goal with |- context [build_from_elems_and_coords ?a ?b ?c ?d ?e ?g] => destruct (build_from_elems_and_coords a b c d e g) as [[q|]| |]; reflexivity end.
Qed.
Lemma box_plain_fills f : proper_elements f dim (plain_elements f dim nx (gy ny) (gz ny nz)) (grid_nverts nx ny nz) /\
  forall T, topology_of f dim (plain_elements f dim nx (gy ny) (gz ny nz)) (grid_nverts nx ny nz) T -> fills_box (cells_along nx ny nz) T (vplace dim nx (gy ny)).
Proof.
  destruct grid_facts as (A & B & C & D & E & F). destruct (plain_fills f dim nx (gy ny) (gz ny nz)) as [P1 P2]; try assumption. fold (grid_nverts nx ny nz) in P1, P2. split; [exact P1|].
  intros T HT. pose proof HT as (V & _ & DT & _). eapply fills_box_ext; [rewrite DT; exact A| |apply P2, HT]. rewrite DT. exact F.
Qed.
(** a step after which one of the two splits is built *)
Lemma centred_step c be p T : loops_covered be -> 2 <= dim -> topology_of OMEGA_H_HYPERCUBE dim (plain_elements OMEGA_H_HYPERCUBE dim nx (gy ny) (gz ny nz)) (grid_nverts nx ny nz) T ->
  mesh_of T (b_mesh (p_built p)) -> places dim (grid_nverts nx ny nz) (p_coords p) (vplace dim nx (gy ny)) ->
  exists nv ev2v coords place, 0 < nv /\ proper_elements OMEGA_H_SIMPLEX dim ev2v nv /\ places dim nv coords place /\
    (forall c', (if dim =? 2 then tris_from_quads_symmetric c c' be p else tets_from_hexes_symmetric c c' be p) = build_from_elems_and_coords c' be OMEGA_H_SIMPLEX dim ev2v coords) /\
    forall U, topology_of OMEGA_H_SIMPLEX dim ev2v nv U -> fills_box (cells_along nx ny nz) U place.
Proof.
  intros HB H2 HT HM HP. destruct grid_facts as (A & B & C & D & E & F). pose proof grid_nverts_pos as NP. assert (dim = 2 \/ dim = 3) as [Ed|Ed] by lia.
  - unfold grid_nverts in *. fold dim in NP, HT, HP. rewrite Ed in NP, HT, HP |- *. rewrite (E ltac:(lia)) in *. cbn [Z.eqb Pos.eqb].
    destruct (sym2_outcome nx (gy ny) Hnx B c be T p HB HT HM HP) as (coords & E1 & P1). destruct (sym2_fills nx (gy ny) Hnx B) as [K1 K2].
    eexists _, _, coords, _. split; [|split; [exact K1|split; [exact P1|split; [exact E1|]]]].
    + assert (0 < nx * gy ny) by nia. lia.
    + intros U HU. pose proof HU as (_ & _ & DU & _). eapply fills_box_ext; [rewrite DU; lia| |apply K2, HU]. rewrite DU. intros a Ha. rewrite <- F by lia. assert (a = 0 \/ a = 1) as [->| ->] by lia; reflexivity.
  - unfold grid_nverts in *. fold dim in NP, HT, HP. rewrite Ed in NP, HT, HP |- *. cbn [Z.eqb Pos.eqb].
    destruct (sym3_outcome nx (gy ny) (gz ny nz) T Hnx B C HT c be p HB HM HP) as (coords & E1 & P1). destruct (sym3_fills nx (gy ny) (gz ny nz) T Hnx B C HT) as [K1 K2].
    eexists _, _, coords, _. split; [|split; [exact K1|split; [exact P1|split; [exact E1|]]]].
    + pose proof (nq_pos nx (gy ny) (gz ny nz) T HT). assert (0 < nx * gy ny * gz ny nz) by (apply Z.mul_pos_pos; [apply Z.mul_pos_pos|]; assumption). lia.
    + intros U HU. pose proof HU as (_ & _ & DU & _). eapply fills_box_ext; [rewrite DU; lia| |apply K2, HU]. rewrite DU. intros a Ha. apply F. lia.
Qed.
Lemma box_outcome c c' be f symmetric : loops_covered be -> exists o, build_box_internal c c' be f nx ny nz symmetric = Ok o /\ forall p, o = Some p -> is_box_mesh f nx ny nz p.
Proof.
  intros HB. destruct (box_cases c c' be f symmetric) as (coords & P & ->). destruct grid_facts as (A & _). pose proof grid_nverts_pos as NP. unfold centred. fold dim. unfold is_box_mesh. fold dim.
  destruct (is_simplex f && symmetric && (2 <=? dim)) eqn:EC.
  - apply andb_true_iff in EC as [EC E2]. apply andb_true_iff in EC as [EF ES]. destruct f; [|discriminate].
    destruct (box_plain_fills OMEGA_H_HYPERCUBE) as [P1 P2]. destruct (one_outcome _ dim _ _ coords be HB NP P1 (proj1 P) c) as (o & Eo & K). rewrite Eo. unfold bindo. cbn [bind]. destruct o as [p|]; [|exists None; split; [reflexivity|discriminate]].
    destruct (K p eq_refl) as (EP & T & HT & HM & HG). rewrite <- EP in P. destruct (centred_step c be p T HB ltac:(lia) HT HM P) as (nv & ev2v & co & place & N1 & N2 & N3 & N4 & N5). rewrite N4.
    destruct (one_outcome _ dim _ _ co be HB N1 N2 (proj1 N3) c') as (o2 & -> & K2). exists o2. split; [reflexivity|]. intros q Hq. destruct (K2 q Hq) as (EQ & U & HU & HMU & HG2). exists ev2v, U, place. pose proof HU as (_ & _ & _ & NU & _). rewrite NU.
    split; [exact HU|]. split; [exact HMU|]. split; [rewrite EQ; exact N3|]. split; [apply N5, HU|exact HG2].
  - destruct (box_plain_fills f) as [P1 P2]. destruct (one_outcome _ dim _ _ coords be HB NP P1 (proj1 P) c) as (o & -> & K). exists o. split; [reflexivity|]. intros p Hp. destruct (K p Hp) as (EP & T & HT & HM & HG).
    exists (plain_elements f dim nx (gy ny) (gz ny nz)), T, (vplace dim nx (gy ny)). pose proof HT as (_ & _ & _ & NT & _). rewrite NT. split; [exact HT|]. split; [exact HM|]. split; [rewrite EP; exact P|]. split; [apply P2, HT|exact HG].
Qed.
Lemma box_finishes be f symmetric mem mem' : loops_covered be ->
  exists first second first' second' p, build_box_internal (mk_chance mem first second (fun _ _ => false)) (mk_chance mem' first' second' (fun _ _ => false)) be f nx ny nz symmetric = Ok (Some p).
Proof.
  intros HB. destruct grid_facts as (A & _). pose proof grid_nverts_pos as NP. destruct (centred f ny nz symmetric) eqn:EC.
  - pose proof EC as EC'. unfold centred in EC'. fold dim in EC'. apply andb_true_iff in EC' as [EF E2]. apply andb_true_iff in EF as [EF ES]. destruct f; [|discriminate].
    destruct (box_cases (mk_chance mem (fun _ _ => []) (fun _ _ => []) (fun _ _ => false)) (mk_chance mem (fun _ _ => []) (fun _ _ => []) (fun _ _ => false)) be OMEGA_H_SIMPLEX symmetric) as (coords0 & P0 & _).
    destruct (box_plain_fills OMEGA_H_HYPERCUBE) as [P1 P2]. destruct (one_finishes _ dim _ _ coords0 be HB NP P1 (proj1 P0) mem) as (first & second & p & E).
    set (c := mk_chance mem first second (fun _ _ => false)) in *.
    destruct (one_outcome _ dim _ _ coords0 be HB NP P1 (proj1 P0) c) as (o & Eo & K). assert (o = Some p) as -> by congruence. destruct (K p eq_refl) as (EP & T & HT & HM & HG).
    assert (places dim (grid_nverts nx ny nz) (p_coords p) (vplace dim nx (gy ny))) as PP by (rewrite EP; exact P0).
    destruct (centred_step c be p T HB ltac:(lia) HT HM PP) as (nv & ev2v & co & place & N1 & N2 & N3 & N4 & _).
    destruct (one_finishes _ dim _ _ co be HB N1 N2 (proj1 N3) mem') as (first' & second' & q & E'). exists first, second, first', second', q. fold c. set (c' := mk_chance mem' first' second' (fun _ _ => false)) in *.
    destruct (box_cases c c' be OMEGA_H_SIMPLEX symmetric) as (coords & P & ->). rewrite EC. assert (coords = coords0) as -> by (apply (places_unique dim (grid_nverts nx ny nz) _ _ (vplace dim nx (gy ny))); [lia|exact P|exact P0]).
    unfold bindo. rewrite E. cbn [bind]. rewrite N4. exact E'.
  - destruct (box_cases (mk_chance mem (fun _ _ => []) (fun _ _ => []) (fun _ _ => false)) (mk_chance mem (fun _ _ => []) (fun _ _ => []) (fun _ _ => false)) be f symmetric) as (coords0 & P0 & _).
    destruct (box_plain_fills f) as [P1 P2]. destruct (one_finishes _ dim _ _ coords0 be HB NP P1 (proj1 P0) mem) as (first & second & p & E). exists first, second, (fun _ _ => []), (fun _ _ => []), p.
    set (c := mk_chance mem first second (fun _ _ => false)) in *. set (c' := mk_chance mem' _ _ _). destruct (box_cases c c' be f symmetric) as (coords & P & ->). rewrite EC. assert (coords = coords0) as ->; [|exact E].
    apply (places_unique dim (grid_nverts nx ny nz) _ _ (vplace dim nx (gy ny))); [lia|exact P|exact P0].
Qed.
Lemma box_counts c c' be f symmetric p : loops_covered be -> centred f ny nz symmetric = false -> build_box_internal c c' be f nx ny nz symmetric = Ok (Some p) ->
  a_nents (b_mesh (p_built p)) 0 = volume dim (fun a => cells_along nx ny nz a + 1) /\
  a_nents (b_mesh (p_built p)) dim = match f with OMEGA_H_SIMPLEX => factorial dim | OMEGA_H_HYPERCUBE => 1 end * volume dim (cells_along nx ny nz).
Proof.
  intros HB EC. destruct (box_cases c c' be f symmetric) as (coords & P & ->). rewrite EC. destruct grid_facts as (A & B & C & D & E & F). pose proof grid_nverts_pos as NP.
  destruct (box_plain_fills f) as [P1 P2]. destruct (one_outcome _ dim _ _ coords be HB NP P1 (proj1 P) c) as (o & -> & K). intros [= ->]. destruct (K p eq_refl) as (_ & T & HT & HM & _).
  pose proof HT as (V & FT & DT & NT & EV & _). pose proof (mesh_ready T _ V HM) as R. rewrite (ready_nents T _ 0 R), (ready_nents T _ dim R) by lia. split.
  - rewrite NT. unfold grid_nverts, wide, dim, box_dim, gy, gz. destruct (Z.eqb_spec ny 0); [|destruct (Z.eqb_spec nz 0)]; rewrite ?volume_1, ?volume_2, ?volume_3; unfold cells_along; cbn [Z.ltb Z.compare Pos.compare Pos.compare_cont]; ring.
  - destruct (v_verts T V dim ltac:(lia)) as (L & _). rewrite FT, EV in L. unfold plain_elements in L.
    assert (volume dim (cells_along nx ny nz) = nx * gy ny * gz ny nz) as VE.
    { unfold dim, box_dim, gy, gz. destruct (Z.eqb_spec ny 0); [|destruct (Z.eqb_spec nz 0)]; rewrite ?volume_1, ?volume_2, ?volume_3; unfold cells_along; ring. } rewrite VE.
    assert (0 < element_degree f dim 0) as HD by (apply degree_pos; lia). assert (zlen (plain_pieces f dim) = match f with OMEGA_H_SIMPLEX => factorial dim | OMEGA_H_HYPERCUBE => 1 end /\ forall r, In r (plain_pieces f dim) -> zlen r = element_degree f dim 0) as [LP LR].
    { assert (dim = 1 \/ dim = 2 \/ dim = 3) as [Ed|[Ed|Ed]] by lia; rewrite Ed; destruct f; (split; [reflexivity|]); apply Forall_forall; repeat constructor. }
    rewrite (P_Align.zlen_concat (element_degree f dim 0)) in L; [unfold layout_rows in L; rewrite (rows_len _ (zlen (plain_pieces f dim))) in L|].
    + rewrite LP in L. nia.
    + intros. apply zlen_map.
    + nia.
    + apply Forall_forall. intros r Hr. unfold layout_rows in Hr. apply in_flat_map in Hr as (c0 & _ & Hr). apply in_map_iff in Hr as (pr & <- & Hp). rewrite zlen_map. apply LR, Hp.
Qed.
End box.
Lemma box_refused c c' be f nx ny nz symmetric : ~ (0 < nx /\ 0 <= ny /\ 0 <= nz) -> build_box_internal c c' be f nx ny nz symmetric = Abort.
Proof.
  intros H. unfold build_box_internal, check. destruct (Z.ltb_spec 0 nx); [|reflexivity]. cbn [bind]. destruct (Z.leb_spec 0 ny); [|reflexivity]. cbn [bind]. destruct (Z.leb_spec 0 nz); [|reflexivity]. lia.
Qed.
Lemma box_right nx ny nz c c' be f symmetric p : 0 < nx -> 0 <= ny -> 0 <= nz -> loops_covered be -> build_box_internal c c' be f nx ny nz symmetric = Ok (Some p) -> is_box_mesh f nx ny nz p.
Proof. intros Hx Hy Hz HB E. destruct (box_outcome nx ny nz Hx Hy Hz c c' be f symmetric HB) as (o & E' & K). apply K. congruence. Qed.
Lemma box_count nx ny nz c c' be f symmetric p : 0 < nx -> 0 <= ny -> 0 <= nz -> loops_covered be -> (symmetric = false \/ f = OMEGA_H_HYPERCUBE \/ ny = 0) -> build_box_internal c c' be f nx ny nz symmetric = Ok (Some p) ->
  a_nents (b_mesh (p_built p)) 0 = volume (box_dim ny nz) (fun a => cells_along nx ny nz a + 1) /\
  a_nents (b_mesh (p_built p)) (box_dim ny nz) = match f with OMEGA_H_SIMPLEX => factorial (box_dim ny nz) | OMEGA_H_HYPERCUBE => 1 end * volume (box_dim ny nz) (cells_along nx ny nz).
Proof.
  intros Hx Hy Hz HB HC. apply (box_counts nx ny nz Hx Hy Hz c c' be f symmetric p HB). unfold centred. destruct HC as [->|[->| ->]]; [rewrite andb_false_r; reflexivity|reflexivity|]. change (2 <=? box_dim 0 nz) with false. apply andb_false_r.
Qed.
Lemma serial_covers : loops_covered (fun _ => Serial).
Proof. intros k Hk. exact I. Qed.
