(** What the old mesh answers is what splitting edges needs. *)
From Coq Require Import String Permutation.
From Verif Require Import Prelude M_Array P_Array M_Par M_Scan S_Sort M_Sort M_Map S_Map P_Map P_Map2 M_Template S_Template P_Template M_Align S_Align P_Align M_Graph S_Graph M_Unique S_Unique P_Unique M_Adj S_Adj P_Adj S_Transit P_Transit S_Across P_Across
  M_Match S_Match P_Match M_Tags M_MeshAdj S_MeshAdj P_MeshAdj P_MeshAdj2 P_MeshAdj3 M_Build S_Build P_Build P_Box S_Unmap P_Unmap P_Mark P_Coarsen
  M_Modify S_Modify P_Modify P_Modify2 S_Swap3d S_Swap2d S_Coarsen M_Refine S_Refine P_Refine M_RefineMesh S_RefineMesh P_RefineMesh1.
Local Open Scope Z_scope.

Lemma align_two (code a b x y : Z) : align_adj 2 code [a; b] = Ok [x; y] -> code_rotation code < 2 -> code_rotation code = 0 /\ x = a /\ y = b \/ code_rotation code = 1 /\ x = b /\ y = a.
Proof.
  intros E Hr. rewrite align_act in E. pose proof (rot_range code) as R. generalize dependent (code_rotation code). intros r E Hr R. assert (r = 0 \/ r = 1) as [->| ->] by lia; destruct (code_is_flipped code); vm_compute in E; injection E as <- <-; auto.
Qed.
Lemma edge_template d w : d = 2 \/ d = 3 -> 0 <= w < simplex_degree d 1 -> side_verts OMEGA_H_SIMPLEX d 1 w = [simplex_down_template d 1 w 0; simplex_down_template d 1 w 1] /\ 0 <= simplex_down_template d 1 w 0 <= d /\ 0 <= simplex_down_template d 1 w 1 <= d.
Proof.
  intros Hd Hw. destruct Hd as [->| ->]; [change (simplex_degree 2 1) with 3 in Hw; assert (w = 0 \/ w = 1 \/ w = 2) as [->|[->| ->]] by lia|change (simplex_degree 3 1) with 6 in Hw; assert (w = 0 \/ w = 1 \/ w = 2 \/ w = 3 \/ w = 4 \/ w = 5) as [->|[->|[->|[->|[->| ->]]]]] by lia]; (split; [reflexivity|]); vm_compute; split; split; congruence.
Qed.

Section asked.
Context (T : topology) (HT : valid_topology T) (HS : simplicial T) (old : amesh) (HR : ready T old).
Context (HA : forall a b, 0 <= a <= t_dim T -> 0 <= b <= t_dim T -> a <> b -> P_MeshAdj.val T a b = Ok (kept_adj old a b)).
Local Notation D := (t_dim T).
Local Notation F := (t_family T).
Lemma sdeg d l : element_degree F d l = simplex_degree d l. Proof. rewrite (s_family T HS). reflexivity. Qed.
Lemma old_dim : a_dim old = D. Proof. apply (i_dim T old), HR. Qed.
Lemma old_family : a_family old = F. Proof. apply (i_family T old), HR. Qed.
Lemma old_nents d : 0 <= d <= D -> a_nents old d = t_nents T d. Proof. intros Hd. apply (i_nents T old (proj1 HR) d Hd), (proj2 HR), Hd. Qed.
Lemma old_down h l : 0 <= l < h -> h <= D -> downv T h l = Ok (kept_adj old h l).
Proof. intros Hl Hh. rewrite <- val_down by lia. apply HA; lia. Qed.
Lemma old_up l h : 0 <= l < h -> h <= D -> upv_of T l h = Ok (kept_adj old l h).
Proof. intros Hl Hh. rewrite <- val_up by lia. apply HA; lia. Qed.
Lemma old_verts d : 1 <= d <= D -> adj_ab2b (kept_adj old d 0) = t_verts T d.
Proof. intros Hd. destruct (down_facts T HT d 0 ltac:(lia) ltac:(lia)) as (dn & E & M & _). rewrite (old_down d 0) in E by lia. injection E as <-. unfold means_down in M. cbn [Z.eqb] in M. rewrite M. reflexivity. Qed.

Lemma edge_down d : 2 <= d <= D -> exists ab codes, kept_adj old d 1 = mk_adj [] ab (Some codes) /\ zlen ab = t_nents T d * simplex_degree d 1 /\ zlen codes = zlen ab /\ reflects F d 1 (t_verts T d) (t_verts T 1) ab codes.
Proof.
  intros Hd. destruct (down_facts T HT d 1 ltac:(lia) ltac:(lia)) as (dn & E & M & _). rewrite (old_down d 1) in E by lia. injection E as <-. unfold means_down in M. cbn [Z.eqb] in M. destruct M as (ab & codes & -> & L1 & L2 & R). exists ab, codes. rewrite sdeg in L1. auto.
Qed.
Lemma edeg d : 2 <= d <= D -> 0 < simplex_degree d 1. Proof. intros Hd. pose proof (v_dim T HT). assert (d = 2 \/ d = 3) as [->| ->] by lia; vm_compute; reflexivity. Qed.

(** an edge in a place of an entity is where the template says *)
Lemma use_edge d ab codes c w k : 2 <= d <= D -> kept_adj old d 1 = mk_adj [] ab (Some codes) -> 0 <= w < simplex_degree d 1 -> zget ab (c * simplex_degree d 1 + w) = Ok k ->
  exists code row a b, zget codes (c * simplex_degree d 1 + w) = Ok code /\ ent_verts T d c row /\ ent_verts T 1 k [a; b] /\ 0 <= code_rotation code < 2 /\
  zget row (simplex_down_template d 1 w (Z.lxor (code_rotation code) 0)) = Ok a /\ zget row (simplex_down_template d 1 w (Z.lxor (code_rotation code) 1)) = Ok b.
Proof.
  intros Hd E Hw Ek. pose proof (v_dim T HT) as HD. destruct (edge_down d Hd) as (ab' & codes' & E' & L1 & L2 & R). rewrite E in E'. injection E' as <- <-. pose proof (edeg d Hd) as Hp. pose proof (zget_bounds _ _ _ Ek) as B.
  assert (0 <= c < t_nents T d) as Hc by nia. destruct (ent_row T HT HS d c ltac:(lia) Hc) as (row & Rc). destruct (edge_template d w ltac:(lia) Hw) as (Es & T0 & T1). destruct (ent_facts T HT HS d c row ltac:(lia) Rc) as (_ & Lr & _).
  destruct (zget_in_range row (simplex_down_template d 1 w 0) ltac:(lia)) as (x & Ex). destruct (zget_in_range row (simplex_down_template d 1 w 1) ltac:(lia)) as (y & Ey).
  destruct (R c w [x; y]) as (l & code & lrow & El & Ec & Rl & Al & Rot).
  { exists row. split; [rewrite (deg0 T HS d) by lia; apply (ent_high T); [lia|exact Rc]|]. split; [rewrite sdeg; exact Hw|]. rewrite (s_family T HS), Es. repeat constructor; assumption. }
  rewrite sdeg in El, Ec. assert (l = k) as -> by congruence. rewrite (deg0 T HS 1) in * by lia. assert (ent_verts T 1 k lrow) as Rk by (apply (ent_high T); [lia|exact Rl]). destruct (edge_row T HT HS k lrow Rk) as (a & b & -> & _).
  exists code, row, a, b. split; [exact Ec|]. split; [exact Rc|]. split; [exact Rk|]. pose proof (rot_range code). split; [lia|]. destruct (align_two _ _ _ _ _ Al Rot) as [(-> & -> & ->)|(-> & -> & ->)]; cbn; auto.
Qed.
Lemma has_use d ab codes c k : 2 <= d <= D -> kept_adj old d 1 = mk_adj [] ab (Some codes) -> has_edge T d c k <-> exists w, 0 <= w < simplex_degree d 1 /\ zget ab (c * simplex_degree d 1 + w) = Ok k.
Proof.
  intros Hd E. pose proof (v_dim T HT) as HD. split.
  - intros (row & a & b & Rc & Rk & Ia & Ib). destruct (edge_down d Hd) as (ab' & codes' & E' & L1 & L2 & R). rewrite E in E'. injection E' as <- <-. destruct (ent_facts T HT HS d c row ltac:(lia) Rc) as (Nr & Lr & _). destruct (ent_facts T HT HS 1 k _ ltac:(lia) Rk) as (Nk & _ & _).
    destruct (P_Map.In_zget _ _ Ia) as (i & Ei). destruct (P_Map.In_zget _ _ Ib) as (j & Ej). pose proof (zget_bounds _ _ _ Ei). pose proof (zget_bounds _ _ _ Ej). assert (i <> j). { intros ->. assert (a = b) as -> by congruence. inversion Nk as [|? ? Nx _]; subst. apply Nx. left. reflexivity. }
    destruct (edge_between d i j ltac:(lia) ltac:(lia) ltac:(lia) ltac:(assumption)) as (u & Hu & Es).
    assert (exists x y, Forall2 (fun v x => zget row v = Ok x) (side_verts OMEGA_H_SIMPLEX d 1 u) [x; y] /\ Permutation [x; y] [a; b]) as (x & y & F2 & P).
    { destruct Es as [->| ->]; [exists a, b|exists b, a]; (split; [repeat constructor; assumption|]); [apply Permutation_refl|apply perm_swap]. }
    destruct (R c u [x; y]) as (l & code & lrow & El & Ec & Rl & Al & Rot).
    { exists row. split; [rewrite (deg0 T HS d) by lia; apply (ent_high T); [lia|exact Rc]|]. rewrite (s_family T HS). split; [exact Hu|exact F2]. }
    rewrite sdeg in El. rewrite (deg0 T HS 1) in * by lia. assert (ent_verts T 1 l lrow) as Rk' by (apply (ent_high T); [lia|exact Rl]). assert (l = k) as ->.
    { apply (once T HS 1 l k lrow [a; b]); try assumption; [lia|]. apply (Permutation_trans (polygon_perm _ _ (polygon_spec 2 code lrow [x; y] ltac:(lia) (proj1 Rl) Al))). exact P. }
    exists u. split; [exact Hu|exact El].
  - intros (w & Hw & Ek). destruct (use_edge d ab codes c w k Hd E Hw Ek) as (code & row & a & b & _ & Rc & Rk & Rot & Ea & Eb). exists row, a, b. split; [exact Rc|]. split; [exact Rk|]. split; eapply zget_In; eassumption.
Qed.

(** the entities around an edge, with codes *)
Local Notation has_1 := (P_RefineMesh1.has_1 T HT HS).
Local Notation has_0 := (P_RefineMesh1.has_0 T HT HS).
Lemma uses_has d ab codes k c : 2 <= d <= D -> kept_adj old d 1 = mk_adj [] ab (Some codes) -> In c (map (fun u => u / simplex_degree d 1) (uses_of ab k)) <-> has_edge T d c k.
Proof.
  intros Hd E. rewrite (has_use d ab codes c k Hd E). rewrite in_map_iff. pose proof (edeg d Hd) as Hp. split.
  - intros (u & <- & Hu). apply uses_of_in in Hu. exists (u mod simplex_degree d 1). pose proof (Z.mod_pos_bound u (simplex_degree d 1) Hp). split; [assumption|]. replace (u / simplex_degree d 1 * simplex_degree d 1 + u mod simplex_degree d 1) with u by (pose proof (Z.div_mod u (simplex_degree d 1)); lia). exact Hu.
  - intros (w & Hw & Ek). exists (c * simplex_degree d 1 + w). split; [rewrite Z.div_add_l by lia; rewrite Z.div_small by lia; lia|]. apply uses_of_in. exact Ek.
Qed.
Lemma edge_ups d : 2 <= d <= D -> exists ab codes, kept_adj old d 1 = mk_adj [] ab (Some codes) /\ S_Across.lists_uses (simplex_degree d 1) (t_nents T 1) ab (Some codes) (kept_adj old 1 d).
Proof.
  intros Hd. pose proof (v_dim T HT) as HD. destruct (up_facts T HT 1 d ltac:(lia) ltac:(lia)) as (dn & up & Ed & Eu & _ & LU & _). rewrite (old_down d 1) in Ed by lia. injection Ed as <-. rewrite (old_up 1 d) in Eu by lia. injection Eu as <-. rewrite sdeg in LU.
  destruct (edge_down d Hd) as (ab & codes & E & _). rewrite E in LU. exists ab, codes. auto.
Qed.
Lemma has_both d c k a b : 2 <= d <= D -> ent_verts T 1 k [a; b] -> has_edge T d c k <-> 0 <= c < t_nents T d /\ has_vert d (t_verts T d) c a /\ has_vert d (t_verts T d) c b.
Proof.
  intros Hd Rk. pose proof (v_dim T HT) as HD. split.
  - intros (row & a' & b' & Rc & Rk' & Ia & Ib). pose proof (ent_unique T 1 k _ _ ltac:(lia) Rk Rk') as E. injection E as <- <-. split; [apply (ent_range T HT HS d c row ltac:(lia) Rc)|]. destruct (ent_facts T HT HS d c row ltac:(lia) Rc) as (_ & Lr & _). apply (ent_high T) in Rc; [|lia].
    assert (forall x, In x row -> has_vert d (t_verts T d) c x) as K. { intros x Ix. destruct (P_Map.In_zget _ _ Ix) as (i & Ei). pose proof (zget_bounds _ _ _ Ei). exists i. split; [lia|]. rewrite (row_zget (d + 1) _ _ row) by (try assumption; lia). exact Ei. } auto.
  - intros (Hc & (i & Hi & Ei) & (j & Hj & Ej)). destruct (ent_row T HT HS d c ltac:(lia) Hc) as (row & Rc). exists row, a, b. split; [exact Rc|]. split; [exact Rk|]. apply (ent_high T) in Rc; [|lia]. rewrite (row_zget (d + 1) _ _ row) in Ei, Ej by (try assumption; lia). split; eapply zget_In; eassumption.
Qed.
Lemma ends_row k a b : 0 <= k < t_nents T 1 -> zget (t_verts T 1) (k * 2 + 0) = Ok a -> zget (t_verts T 1) (k * 2 + 1) = Ok b -> ent_verts T 1 k [a; b].
Proof.
  intros Hk Ea Eb. pose proof (v_dim T HT) as HD. destruct (ent_row T HT HS 1 k ltac:(lia) Hk) as (row & R). destruct (edge_row T HT HS k row R) as (x & y & -> & _). pose proof R as R'. apply (ent_high T) in R'; [|lia]. change (1 + 1) with 2 in R'. rewrite (row_zget 2 _ _ _ 0 R') in Ea by lia. rewrite (row_zget 2 _ _ _ 1 R') in Eb by lia. injection Ea as <-. injection Eb as <-. exact R.
Qed.
Lemma row_ends k a b : ent_verts T 1 k [a; b] -> zget (t_verts T 1) (k * 2 + 0) = Ok a /\ zget (t_verts T 1) (k * 2 + 1) = Ok b.
Proof. intros R. apply (ent_high T) in R; [|lia]. change (1 + 1) with 2 in R. rewrite (row_zget 2 _ _ _ 0 R), (row_zget 2 _ _ _ 1 R) by lia. auto. Qed.
Lemma up_ok d : 2 <= d <= D -> edge_up_ok d (t_nents T d) (t_verts T 1) (t_verts T d) (kept_adj old 1 d) /\ zlen (adj_a2ab (kept_adj old 1 d)) = t_nents T 1 + 1.
Proof.
  intros Hd. pose proof (v_dim T HT) as HD. destruct (edge_ups d Hd) as (ab & codes & E & W & L & N & U). split; [|exact L]. split; [exact W|]. destruct (adj_codes (kept_adj old 1 d)) as [uc|] eqn:Ec; [|congruence]. exists uc. split; [reflexivity|].
  intros e v0 v1 He E0 E1. rewrite L in He. pose proof (ends_row e v0 v1 ltac:(lia) E0 E1) as Re. destruct (U e ltac:(lia)) as [U1 U2]. split.
  - intros cs Ecs c. assert (cs = map (fun u => u / simplex_degree d 1) (uses_of ab e)) as -> by congruence. rewrite (uses_has d ab codes e c Hd E). apply has_both; assumption.
  - intros ec (lo & hi & G1 & G2 & G3). unfold adj_target_codes in U2. rewrite Ec in U2. apply targets_split in U1 as (lo1 & hi1 & A1 & A2 & A3). apply targets_split in U2 as (lo2 & hi2 & B1 & B2 & B3). cbn [a2ab ab2b] in *.
    assert (lo1 = lo) as -> by congruence. assert (hi1 = hi) as -> by congruence. assert (lo2 = lo) as -> by congruence. assert (hi2 = hi) as -> by congruence.
    assert (nth_error (zfromto lo hi) (Z.to_nat (ec - lo)) = Some ec) as Ne. { unfold zfromto. rewrite nth_error_map, zrange_nth by lia. cbn. f_equal. lia. }
    destruct (nth_error_mapM _ _ _ _ _ A3 Ne) as (c & C1 & C2). destruct (nth_error_mapM _ _ _ _ _ B3 Ne) as (code & D1 & D2). rewrite nth_error_map in C1, D1. destruct (nth_error (uses_of ab e) (Z.to_nat (ec - lo))) as [u|] eqn:Eu; [|discriminate]. cbn in C1, D1. injection C1 as <-. injection D1 as <-.
    exists (u / simplex_degree d 1), (use_code (simplex_degree d 1) (Some codes) u). split; [exact C2|]. split; [exact D2|]. apply nth_error_In in Eu. apply uses_of_in in Eu. pose proof (edeg d Hd) as Hp. pose proof (Z.mod_pos_bound u (simplex_degree d 1) Hp) as Hm.
    assert (u / simplex_degree d 1 * simplex_degree d 1 + u mod simplex_degree d 1 = u) as Hu by (pose proof (Z.div_mod u (simplex_degree d 1)); lia). rewrite <- Hu in Eu.
    destruct (use_edge d ab codes _ _ _ Hd E Hm Eu) as (code & row & a & b & Ecode & Rc & Rk & Rot & Ea & Eb). pose proof (ent_unique T 1 e _ _ ltac:(lia) Re Rk) as Q. injection Q as <- <-. rewrite Hu in Ecode.
    unfold use_code. rewrite Ecode. assert (simplex_degree d 1 <= 6) as H6 by (assert (d = 2 \/ d = 3) as [->| ->] by lia; vm_compute; congruence).
    destruct (code_fields (code_is_flipped code) (code_rotation code) (u mod simplex_degree d 1) ltac:(lia) ltac:(lia)) as (_ & F2 & F3 & _). rewrite F2, F3. split; [lia|]. split; [exact Rot|].
    pose proof (proj1 (ent_high T d _ _ ltac:(lia)) Rc) as Rr. destruct (edge_template d _ ltac:(lia) Hm) as (_ & T0 & T1).
    assert (forall r, r = 0 \/ r = 1 -> 0 <= simplex_down_template d 1 (u mod simplex_degree d 1) r < d + 1) as Tb by (intros r [->| ->]; lia). assert (code_rotation code = 0 \/ code_rotation code = 1) as Hr by lia.
    rewrite !(row_zget (d + 1) _ _ row) by (try assumption; apply Tb; destruct Hr as [->| ->]; cbn; auto). auto.
Qed.
Lemma split_ok : split_mesh D (t_nents T) (t_verts T) (fun d => kept_adj old 1 d).
Proof.
  pose proof (v_dim T HT) as HD. split; [exact HD|]. split; [intros d Hd; destruct (v_verts T HT d Hd) as (L & _); rewrite (deg0 T HS d) in L by lia; exact L|].
  intros d Hd. destruct (up_ok d Hd) as [U1 U2]. split; [exact U1|]. split; [exact U2|]. intros c Hc i j v Hi Hj Ei Ej. destruct (ent_row T HT HS d c ltac:(lia) Hc) as (row & Rc). destruct (ent_facts T HT HS d c row ltac:(lia) Rc) as (Nr & _). apply (ent_high T) in Rc; [|lia]. rewrite (row_zget (d + 1) _ _ row) in Ei, Ej by (try assumption; lia). exact (NoDup_zget _ _ _ _ Nr Ei Ej).
Qed.
Lemma view_ok : consistent (view old).
Proof.
  pose proof (v_dim T HT) as HD. unfold consistent, view. cbn [mesh_dim nents owned degree M_Modify.ask_down M_Modify.ask_up]. rewrite old_dim. split; [lia|]. split.
  - intros d Hd. rewrite (old_nents d Hd). pose proof (v_nents T HT d Hd). split; [assumption|]. rewrite zlen_map, zlen_zrange by assumption. reflexivity.
  - intros a b Ha Hab Hb. rewrite old_family. destruct (down_facts T HT b a ltac:(lia) Hb) as (dn & Ed & Md & Ad & Ld & Rd & Nd & Cd). destruct (up_facts T HT a b ltac:(lia) Hb) as (dn' & up & Ed' & Eu & _ & LU & _). assert (dn' = dn) as -> by congruence. rewrite (old_down b a) in Ed by lia. injection Ed as <-. rewrite (old_up a b) in Eu by lia. injection Eu as <-.
    rewrite !old_nents by lia. pose proof (degree_pos F b a ltac:(lia) ltac:(lia)) as Hp. split; [exact Hp|]. split; [exact Ld|]. split; [intros i x Ex; apply Rd; eapply zget_In, Ex|].
    destruct LU as (W & L & N & U). split; [exact W|]. split; [exact L|]. intros l Hl. destruct (U l Hl) as [U1 U2]. split; [exact U1|]. eexists. split; [exact U2|]. rewrite map_map. apply map_ext_in. intros u Hu.
    apply uses_of_in in Hu. pose proof (Z.mod_pos_bound u (element_degree F b a) Hp) as Hm.
    assert (element_degree F b a <= 12) as H12 by (assert (b = 1 \/ b = 2 \/ b = 3) as [->|[->| ->]] by lia; (assert (a = 0 \/ a = 1 \/ a = 2) as [->|[->| ->]] by lia); try lia; destruct F; vm_compute; congruence).
    unfold use_code. destruct (adj_codes (kept_adj old b a)) as [cs|] eqn:Ec.
    + destruct (zget_in_range cs u) as (x & Ex). { rewrite (Cd cs eq_refl). eapply zget_bounds, Hu. } rewrite Ex. pose proof (rot_range x). destruct (code_fields (code_is_flipped x) (code_rotation x) (u mod element_degree F b a) ltac:(lia) ltac:(lia)) as (_ & _ & Q & _). exact Q.
    + destruct (code_fields false 0 (u mod element_degree F b a) ltac:(lia) ltac:(lia)) as (_ & _ & Q & _). exact Q.
Qed.
Section keys.
Context (keys : list Z) (HK : splittable T keys).
Local Notation one_key := (P_RefineMesh1.one_key T HT HS keys HK).
Local Notation key_has := (P_RefineMesh1.key_has T HT HS keys HK).
Lemma touches_iff d x : 0 <= d <= D -> touches (view old) 1 keys d x <-> exists k, In k keys /\ has_edge T d x k.
Proof.
  intros Hd. pose proof (v_dim T HT) as HD. unfold touches, view. cbn [degree M_Modify.ask_down]. rewrite old_family, sdeg. assert (d = 0 \/ d = 1 \/ 2 <= d) as [->|[->|H2]] by lia.
  - split; [intros [[? _]|[? _]]; lia|]. intros (k & _ & H). exfalso. apply (has_0 _ _ H).
  - split; [intros [[_ I]|[? _]]; [|lia]; exists x; split; [exact I|]; apply has_1; split; [reflexivity|apply (k_edges T keys HK), I]|]. intros (k & I & H). apply has_1 in H as [-> _]. auto.
  - destruct (edge_down d ltac:(lia)) as (ab & codes & E & _). rewrite E. cbn [adj_ab2b]. split.
    + intros [[? _]|(_ & s & k & Hs & Ek & I)]; [lia|]. exists k. split; [exact I|]. apply (has_use d ab codes x k ltac:(lia) E). eauto.
    + intros (k & I & H). apply (has_use d ab codes x k ltac:(lia) E) in H as (w & Hw & Ek). right. split; [lia|]. exists w, k. auto.
Qed.
Lemma numbered d keys2prods nprods : 0 <= d <= D -> is_fan keys2prods -> zlen keys2prods = zlen keys + 1 -> last_of keys2prods = Ok nprods ->
  exists r, modify_ents_adapt (view old) d 1 keys keys2prods = Ok r /\ good_numbering (view old) d (only_at 1 keys) (only_at 1 keys2prods) nprods (fun x => ~ exists k, In k keys /\ has_edge T d x k) r.
Proof.
  intros Hd Fan L Last. pose proof (v_dim T HT). destruct (adapt_numbering_lemma (view old) d 1 keys keys2prods nprods view_ok) as (r & E & G); try assumption.
  - cbn. rewrite old_dim. exact Hd.
  - cbn. rewrite old_dim. lia.
  - apply (k_once T keys HK).
  - cbn. rewrite old_nents by lia. apply (k_edges T keys HK).
  - intros H1. destruct (edge_down d ltac:(lia)) as (ab & codes & Eab & _). split.
    + intros x s s' k k' Hs Hs' Ek Ek' I I'. cbn in *. rewrite old_family, sdeg, Eab in *. cbn [adj_ab2b] in *. apply (one_key d x); try assumption; try lia; apply (has_use d ab codes x _ ltac:(lia) Eab); eauto.
    + intros k I. cbn. rewrite Eab. cbn [adj_ab2b]. destruct (key_has k d I ltac:(lia)) as (c & Hc). apply (has_use d ab codes c k ltac:(lia) Eab) in Hc as (w & _ & Ek). eauto.
  - exists r. split; [exact E|]. destruct G as (G1 & G2 & G3 & G4 & G5 & G6 & G7 & G8 & G9 & G10 & G11 & G12).
    assert (forall x, touches (view old) 1 keys d x <-> exists k, In k keys /\ has_edge T d x k) as TI by (intros x; apply touches_iff; exact Hd).
    assert (forall x, ~ touches (view old) 1 keys d x <-> ~ exists k, In k keys /\ has_edge T d x k) as TN by (intros x; rewrite TI; tauto).
    split; [intros x; rewrite G1, TN; tauto|]. repeat (split; [assumption|]). split; [intros x Hx Hn; apply G9; [exact Hx|]; rewrite TN; exact Hn|]. split; [|split; assumption].
    intros d' md p y rep P1 P2 P3. destruct (G10 d' md p y rep P1 P2 P3) as [Q1 Q2]. split; [intros x xn Hx; apply Q1; rewrite TN; exact Hx|exact Q2].
Qed.
End keys.
End asked.
