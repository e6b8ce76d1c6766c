(** Collapsing edges: what the old mesh answers. *)
From Coq Require Import String Permutation Sorted.
From Verif Require Import Prelude M_Array P_Array M_Par M_Scan P_Fan S_Sort M_Sort M_Map S_Map P_Map P_Map2 M_Template S_Template P_Template M_Align S_Align P_Align M_Graph S_Graph P_Graph M_Unique S_Unique P_Unique M_Adj S_Adj P_Adj S_Transit P_Transit S_Across P_Across
  M_Match S_Match P_Match M_Tags M_MeshAdj S_MeshAdj P_MeshAdj P_MeshAdj2 P_MeshAdj3 M_Build S_Build P_Build P_Box S_Unmap P_Unmap P_Mark M_Coarsen S_Coarsen P_Dead P_Coarsen
  M_Modify S_Modify P_Modify P_Modify2 S_Swap3d M_RefineMesh S_RefineMesh S_Rebuild P_Rebuild P_Rebuild2 P_Rebuild3 P_RefineMesh1 P_RefineMesh2 P_RefineMesh4 P_RefineMesh5 P_Flip4 S_Patch P_Patch M_Collapse S_Collapse P_Collapse1 P_Collapse2.
Local Open Scope Z_scope.

Section asked.
Context (T : topology) (HT : valid_topology T) (HS : simplicial T) (old : amesh) (HR : ready T old).
Context (HA : forall a b, 0 <= a <= t_dim T -> 0 <= b <= t_dim T -> a <> b -> P_MeshAdj.val T a b = Ok (kept_adj old a b)).
Local Notation D := (t_dim T).
Local Notation F := (t_family T).
Lemma has_row d c v : 1 <= d <= D -> has_vert d (t_verts T d) c v <-> exists row, ent_verts T d c row /\ In v row.
Proof.
  intros Hd. pose proof (v_dim T HT) as HD. split.
  - intros (j & Hj & E). pose proof (zget_bounds _ _ _ E) as B. destruct (v_verts T HT d Hd) as (L & _). rewrite (deg0 T HS d) in L by lia. rewrite L in B. assert (0 <= c < t_nents T d) as Hc by nia. destruct (ent_row T HT HS d c ltac:(lia) Hc) as (row & R). exists row. split; [exact R|]. apply (ent_high T) in R; [|lia]. rewrite (row_zget (d + 1) _ _ row) in E by (try assumption; lia). eapply zget_In, E.
  - intros (row & R & I). destruct (ent_facts T HT HS d c row ltac:(lia) R) as (_ & Lr & _). apply (ent_high T) in R; [|lia]. destruct (P_Map.In_zget _ _ I) as (i & Ei). pose proof (zget_bounds _ _ _ Ei). exists i. split; [lia|]. rewrite (row_zget (d + 1) _ _ row) by (try assumption; lia). exact Ei.
Qed.
Lemma vert_uses d : 1 <= d <= D -> S_Across.lists_uses (d + 1) (t_nents T 0) (t_verts T d) None (kept_adj old 0 d).
Proof.
  intros Hd. pose proof (v_dim T HT) as HD. destruct (up_facts T HT 0 d ltac:(lia) ltac:(lia)) as (dn & up & Ed & Eu & _ & LU & _). destruct (down_facts T HT d 0 ltac:(lia) ltac:(lia)) as (dn' & Ed' & M & _). assert (dn' = dn) as -> by congruence. unfold means_down in M. cbn [Z.eqb] in M. subst dn. rewrite (old_up T old HA 0 d) in Eu by lia. injection Eu as <-. rewrite (deg0 T HS d) in LU by lia. exact LU.
Qed.
Lemma use_at d u v : 1 <= d <= D -> zget (t_verts T d) u = Ok v -> exists row, ent_verts T d (u / (d + 1)) row /\ zget row (u mod (d + 1)) = Ok v /\ 0 <= u mod (d + 1) <= d.
Proof.
  intros Hd E. pose proof (v_dim T HT) as HD. pose proof (Z.mod_pos_bound u (d + 1) ltac:(lia)) as Hm. assert (u / (d + 1) * (d + 1) + u mod (d + 1) = u) as Hu by (pose proof (Z.div_mod u (d + 1)); lia).
  pose proof (zget_bounds _ _ _ E) as B. destruct (v_verts T HT d Hd) as (L & _). rewrite (deg0 T HS d) in L by lia. rewrite L in B. assert (0 <= u / (d + 1) < t_nents T d) as Hc by (split; [apply Z.div_pos; lia|apply Z.div_lt_upper_bound; lia]).
  destruct (ent_row T HT HS d _ ltac:(lia) Hc) as (row & R). exists row. split; [exact R|]. apply (ent_high T) in R; [|lia]. rewrite <- Hu in E. rewrite (row_zget (d + 1) _ _ row) in E by (try assumption; lia). split; [exact E|lia].
Qed.
Lemma verts_up d : 1 <= d <= D -> vert_up_ok d (t_verts T d) (kept_adj old 0 d).
Proof.
  intros Hd. pose proof (v_dim T HT) as HD. destruct (vert_uses d Hd) as (W & L & N & U). split; [exact W|]. destruct (adj_codes (kept_adj old 0 d)) as [codes|] eqn:Ec; [|congruence]. exists codes. split; [reflexivity|]. intros v p c code (lo & hi & G1 & G2 & G3) E1 E2.
  pose proof (zget_bounds _ _ _ G1) as B1. pose proof (zget_bounds _ _ _ G2) as B2. destruct (U v ltac:(lia)) as [U1 U2]. unfold adj_target_codes in U2. rewrite Ec in U2. apply targets_split in U1 as (lo1 & hi1 & A1 & A2 & A3). apply targets_split in U2 as (lo2 & hi2 & C1 & C2 & C3). cbn [a2ab ab2b] in *.
  assert (lo1 = lo) as -> by congruence. assert (hi1 = hi) as -> by congruence. assert (lo2 = lo) as -> by congruence. assert (hi2 = hi) as -> by congruence.
  assert (nth_error (zfromto lo hi) (Z.to_nat (p - lo)) = Some p) as Ne. { unfold zfromto. rewrite nth_error_map, zrange_nth by lia. cbn. f_equal. lia. }
  destruct (nth_error_mapM _ _ _ _ _ A3 Ne) as (c' & X1 & X2). destruct (nth_error_mapM _ _ _ _ _ C3 Ne) as (code' & Y1 & Y2). rewrite nth_error_map in X1, Y1. destruct (nth_error (uses_of (t_verts T d) v) (Z.to_nat (p - lo))) as [u|] eqn:Eu; [|discriminate]. cbn in X1, Y1. injection X1 as <-. injection Y1 as <-. rewrite E1 in X2. injection X2 as ->. rewrite E2 in Y2. injection Y2 as ->.
  apply nth_error_In in Eu. apply uses_of_in in Eu. destruct (use_at d u v Hd Eu) as (row & R & E & Hm). unfold use_code. destruct (code_fields false 0 (u mod (d + 1)) ltac:(lia) ltac:(lia)) as (_ & _ & -> & _). split; [exact Hm|]. pose proof (proj1 (ent_high T d _ _ ltac:(lia)) R) as R'. split; [rewrite (row_zget (d + 1) _ _ row) by (try assumption; lia); exact E|].
  destruct (ent_facts T HT HS d _ row ltac:(lia) R) as (Nr & _). intros i j x Hi Hj Ei Ej. rewrite (row_zget (d + 1) _ _ row) in Ei, Ej by (try assumption; lia). exact (NoDup_zget _ _ _ _ Nr Ei Ej).
Qed.
(** the entities at a vertex: those that have it, each once *)
Lemma at_vert d v : 1 <= d <= D -> 0 <= v < t_nents T 0 -> exists es, adj_targets (kept_adj old 0 d) v = Ok es /\ NoDup es /\ forall c, In c es <-> exists row, ent_verts T d c row /\ In v row.
Proof.
  intros Hd Hv. pose proof (v_dim T HT) as HD. destruct (vert_uses d Hd) as (_ & _ & _ & U). destruct (U v Hv) as [U1 _]. eexists. split; [exact U1|]. split.
  - apply nodup_map_on; [apply strict_nodup, StronglySorted_Sorted, uses_of_sorted|]. intros a b Ia Ib E. apply uses_of_in in Ia, Ib. destruct (use_at d a v Hd Ia) as (row & R & Ea & _). destruct (use_at d b v Hd Ib) as (row' & R' & Eb & _). rewrite <- E in R'. pose proof (ent_unique T d _ _ _ ltac:(lia) R R') as <-. destruct (ent_facts T HT HS d _ row ltac:(lia) R) as (Nr & _). pose proof (NoDup_zget _ _ _ _ Nr Ea Eb) as Em.
    rewrite (Z.div_mod a (d + 1)), (Z.div_mod b (d + 1)) by lia. rewrite E, Em. reflexivity.
  - intros c. rewrite <- (has_row d c v Hd), in_map_iff. split.
    + intros (u & <- & I). apply uses_of_in in I. destruct (use_at d u v Hd I) as (row & R & E & Hm). apply has_row; [exact Hd|]. exists row. split; [exact R|eapply zget_In, E].
    + intros (j & Hj & E). exists (c * (d + 1) + j). split; [rewrite Z.div_add_l by lia; rewrite Z.div_small by lia; lia|]. apply uses_of_in, E.
Qed.
Lemma in_up d c : 1 <= d <= D -> In c (adj_ab2b (kept_adj old 0 d)) -> 0 <= c < t_nents T d.
Proof.
  intros Hd I. pose proof (v_dim T HT) as HD. destruct (vert_uses d Hd) as ((W1 & W2 & _) & L & _ & U). apply P_Map.In_zget in I as (p & Ep). pose proof (zget_bounds _ _ _ Ep) as B. destruct (in_group_exists _ _ p W1 W2 B) as (v & G). pose proof G as (lo & hi & G1 & G2 & G3). pose proof (zget_bounds _ _ _ G1) as B1. pose proof (zget_bounds _ _ _ G2) as B2. destruct (at_vert d v Hd ltac:(lia)) as (es & E & _ & HI).
  apply targets_split in E as (lo1 & hi1 & A1 & A2 & A3). cbn [a2ab ab2b] in *. assert (lo1 = lo) as -> by congruence. assert (hi1 = hi) as -> by congruence. assert (In c es) as Ic. { assert (In p (zfromto lo hi)) as Ip by (apply in_zfromto; exact G3). apply In_nth_error in Ip as (i & Ei). destruct (nth_error_mapM _ _ _ _ _ A3 Ei) as (y & Ny & Ey). assert (y = c) as -> by congruence. eapply nth_error_In, Ny. }
  apply HI in Ic as (row & R & _). apply (ent_range T HT HS d c row ltac:(lia) R).
Qed.
(** sides *)
Lemma side_at d c u row : 2 <= d <= D -> ent_verts T d c row -> 0 <= u <= d -> exists s srow lrow, zget (adj_ab2b (kept_adj old d (d - 1))) (c * (d + 1) + u) = Ok s /\ Forall2 (fun v x => zget row v = Ok x) (side_verts OMEGA_H_SIMPLEX d (d - 1) u) lrow /\ ent_verts T (d - 1) s srow /\ Permutation srow lrow.
Proof.
  intros Hd R Hu. pose proof (v_dim T HT) as HD. destruct (down_facts T HT d (d - 1) ltac:(lia) ltac:(lia)) as (dn & E & M & _). rewrite (old_down T old HA d (d - 1)) in E by lia. injection E as <-. unfold means_down in M. destruct (Z.eqb_spec (d - 1) 0) as [Z0|_]; [lia|]. destruct M as (ab & codes & -> & L1 & L2 & RF). cbn [adj_ab2b]. pose proof (proj1 (ent_high T d c row ltac:(lia)) R) as R'. rewrite <- (deg0 T HS d) in R' by lia.
  assert (element_degree F d (d - 1) = d + 1) as Ed by (rewrite (s_family T HS); assert (d = 2 \/ d = 3) as [->| ->] by lia; reflexivity).
  destruct (side_exists F d (d - 1) (t_verts T d) c u row ltac:(lia) ltac:(lia) R' ltac:(lia)) as (lrow & SD). pose proof SD as (hr & Rh & _ & F2). assert (hr = row) as -> by (apply (row_is_unique _ _ _ _ _ Rh R')). destruct (RF c u lrow SD) as (l & code & srow & El & _ & Rl & Al & _). rewrite (deg0 T HS (d - 1)) in Rl, Al by lia. rewrite Ed in El.
  exists l, srow, lrow. split; [exact El|]. split; [rewrite (s_family T HS) in F2; exact F2|]. split; [apply ent_high; [lia|exact Rl]|]. apply (polygon_perm _ _ (polygon_spec (d - 1 + 1) code srow lrow ltac:(lia) (proj1 Rl) Al)).
Qed.
Lemma sdeg2 d : 2 <= d <= 3 -> simplex_degree d (d - 1) = d + 1.
Proof. intros H. assert (d = 2 \/ d = 3) as [->| ->] by lia; reflexivity. Qed.
Lemma side_iff d c row s : 2 <= d <= D -> ent_verts T d c row -> side_of d (adj_ab2b (kept_adj old d (d - 1))) c s <-> exists y srow, In y row /\ ent_verts T (d - 1) s srow /\ Permutation srow (rm y row).
Proof.
  intros Hd R. pose proof (v_dim T HT) as HD. destruct (ent_facts T HT HS d c row ltac:(lia) R) as (Nr & Lr & _). split.
  - intros (k & Hk & E). destruct (side_at d c k row Hd R Hk) as (s' & srow & lrow & E' & F2 & Rs & P). assert (s' = s) as -> by congruence. destruct (side_drop d row k lrow ltac:(lia) Lr Nr ltac:(rewrite sdeg2; lia) F2) as (y & Iy & Q). exists y, srow. split; [exact Iy|]. split; [exact Rs|exact (Permutation_trans P Q)].
  - intros (y & srow & Iy & Rs & P). apply P_Map.In_zget in Iy as (j & Ej). pose proof (zget_bounds _ _ _ Ej) as Bj. destruct (opposite_side d j ltac:(lia) ltac:(lia)) as (u & Hu & Ns & Nj & Ls). change (element_degree OMEGA_H_SIMPLEX d (d - 1)) with (simplex_degree d (d - 1)) in Hu. rewrite sdeg2 in Hu by lia.
    destruct (side_at d c u row Hd R ltac:(lia)) as (s' & srow' & lrow & E' & F2 & Rs' & P'). exists u. split; [lia|]. rewrite E'. f_equal. apply (P_RefineMesh1.once T HS (d - 1) s' s srow' srow ltac:(lia) Rs' Rs). apply (Permutation_trans P'). apply Permutation_sym, (Permutation_trans P), Permutation_sym. apply incl_same; [eapply zget_list_perm; eassumption|apply rm_nodup, Nr| |rewrite (rm_len y row Nr (zget_In _ _ _ Ej)); apply Forall2_len in F2; unfold zlen in *; lia].
    intros x Hx. destruct (zget_list_in _ _ _ _ F2 Hx) as (v & Iv & Ev). apply rm_in. split; [eapply zget_In, Ev|]. intros ->. apply Nj. rewrite <- (NoDup_zget _ _ _ _ Nr Ev Ej). exact Iv.
Qed.
Lemma sides_right d : 2 <= d <= D -> sides_ok d (t_nents T d) (t_nents T (d - 1)) (t_verts T d) (t_verts T (d - 1)) (adj_ab2b (kept_adj old d (d - 1))).
Proof.
  intros Hd c k Hc Hk. pose proof (v_dim T HT) as HD. destruct (ent_row T HT HS d c ltac:(lia) Hc) as (row & R). destruct (side_at d c k row Hd R Hk) as (s & srow & lrow & E & F2 & Rs & P). exists s. split; [exact E|]. split; [apply (ent_range T HT HS (d - 1) s srow ltac:(lia) Rs)|]. intros v. rewrite (has_row (d - 1) s v ltac:(lia)).
  assert (side_verts OMEGA_H_SIMPLEX d (d - 1) k = map (simplex_down_template d (d - 1) k) (zrange d)) as Es by (assert (d = 2 \/ d = 3) as [->| ->] by lia; reflexivity).
  destruct (side_drops' d k ltac:(lia) ltac:(rewrite sdeg2; lia)) as (_ & _ & TB). rewrite Es in F2, TB. pose proof (proj1 (ent_high T d c row ltac:(lia)) R) as R'. split.
  - intros (srow' & Rs' & I). pose proof (ent_unique T (d - 1) s _ _ ltac:(lia) Rs Rs') as <-. apply (Permutation_in _ P) in I. destruct (zget_list_in _ _ _ _ F2 I) as (t & It & Et). pose proof (TB t It) as Bt. apply in_map_iff in It as (j & <- & Ij). apply in_zrange in Ij. exists j. split; [exact Ij|]. rewrite (row_zget (d + 1) _ _ row) by (try assumption; lia). exact Et.
  - intros (j & Hj & Ej). exists srow. split; [exact Rs|]. apply (Permutation_in _ (Permutation_sym P)). assert (In (simplex_down_template d (d - 1) k j) (map (simplex_down_template d (d - 1) k) (zrange d))) as It by (apply in_map, in_zrange; exact Hj). pose proof (TB _ It) as Bt. rewrite (row_zget (d + 1) _ _ row) in Ej by (try assumption; lia).
    destruct (Forall2_in_l _ _ _ _ F2 It) as (x & Ix & Ex). congruence.
Qed.
(** the mesh as collapses see it; dimensions out of range do not matter *)
Definition counts (d : Z) : Z := if (0 <=? d) && (d <=? D) then t_nents T d else 0.
Lemma counts_in d : 0 <= d <= D -> counts d = t_nents T d.
Proof. intros H. unfold counts. destruct (Z.leb_spec 0 d), (Z.leb_spec d D); try lia. reflexivity. Qed.
Lemma simplices : simplex_mesh D counts (t_verts T) (fun d => kept_adj old 1 d) (fun d => adj_ab2b (kept_adj old d (d - 1))).
Proof.
  pose proof (v_dim T HT) as HD. split; [exact HD|]. split; [intros d; unfold counts; destruct (Z.leb_spec 0 d), (Z.leb_spec d D); cbn; try lia; apply (v_nents T HT); lia|]. intros d Hd. rewrite !counts_in by lia. destruct (up_ok T HT HS old HA d Hd) as [U1 U2]. split; [exact U1|]. split; [exact U2|]. split; [apply sides_right, Hd|].
  intros c Hc i j v Hi Hj Ei Ej. destruct (ent_row T HT HS d c ltac:(lia) Hc) as (row & Rc). destruct (ent_facts T HT HS d c row ltac:(lia) Rc) as (Nr & _). apply (ent_high T) in Rc; [|lia]. rewrite (row_zget (d + 1) _ _ row) in Ei, Ej by (try assumption; lia). exact (NoDup_zget _ _ _ _ Nr Ei Ej).
Qed.
Lemma mark_ext n n' up dn rs dirs : (forall d, 1 <= d <= D -> n d = n' d) -> mark_dead_ents D n up dn rs dirs = mark_dead_ents D n' up dn rs dirs.
Proof.
  pose proof (v_dim T HT) as HD. intros H. unfold mark_dead_ents. rewrite (H 1) by lia. cbn [mapM]. destruct (Z.leb_spec 2 D) as [A|A], (Z.leb_spec 3 D) as [B|B]; try rewrite (H 2) by lia; try rewrite (H 3) by lia; reflexivity.
Qed.

Section keys.
Context (globals keys rails : list Z) (HC : collapsible T globals keys rails).
Local Notation goes := (goes T globals keys rails).
Local Notation shrinks := (shrinks T globals keys rails).
Local Notation falls := (falls T globals keys rails).
Local Notation keyless := (keyless keys).
Lemma key_range v : In v keys -> 0 <= v < t_nents T 0.
Proof. intros I. destruct (c_goes _ _ _ _ HC v I) as (w & G). apply (goes_facts T HT HS globals keys rails HC v w G). Qed.
Lemma find_first ve2e codes g : forall ves, (forall p, In p ves -> exists e x c, zget ve2e p = Ok e /\ zget globals e = Ok x /\ zget codes p = Ok c) -> (exists p e, In p ves /\ zget ve2e p = Ok e /\ zget globals e = Ok g) ->
  exists p e code, In p ves /\ zget ve2e p = Ok e /\ zget globals e = Ok g /\ zget codes p = Ok code /\ find_rail ve2e codes globals g ves = Ok (e, code_which_down code).
Proof.
  induction ves as [|p ves IH]; intros H (q & e & I & E1 & E2); [destruct I|]. destruct (H p (or_introl eq_refl)) as (e' & x & c & A1 & A2 & A3). cbn [find_rail]. rewrite A1. cbn [bind]. rewrite A2. cbn [bind]. destruct (Z.eqb_spec x g) as [->|N].
  - rewrite A3. cbn [bind]. exists p, e', c. repeat split; try assumption. left. reflexivity.
  - destruct IH as (p' & e1 & code & B1 & B2); [intros p' I'; apply H; right; exact I'|exists q, e; split; [|auto]; destruct I as [->|I]; [|exact I]; congruence|]. exists p', e1, code. split; [right; exact B1|exact B2].
Qed.
(** the rail of each key *)
Lemma rail_of v codes : adj_codes (kept_adj old 0 1) = Some codes -> In v keys -> exists g lo hi e dir w, zget rails v = Ok g /\ zget (adj_a2ab (kept_adj old 0 1)) v = Ok lo /\ zget (adj_a2ab (kept_adj old 0 1)) (v + 1) = Ok hi /\ find_rail (adj_ab2b (kept_adj old 0 1)) codes globals g (zfromto lo hi) = Ok (e, dir) /\
  (dir = 0 \/ dir = 1) /\ 0 <= e < t_nents T 1 /\ zget (t_verts T 1) (e * 2 + dir) = Ok v /\ zget (t_verts T 1) (e * 2 + (1 - dir)) = Ok w /\ goes v w.
Proof.
  intros Ec Iv. pose proof (v_dim T HT) as HD. pose proof (key_range v Iv) as Hv. destruct (c_goes _ _ _ _ HC v Iv) as (w & G). pose proof G as (_ & g & k & row & Eg & Ek & Rk & Pk). destruct (at_vert 1 v ltac:(lia) Hv) as (es & Et & _ & HI). pose proof Et as Et'. unfold adj_targets in Et'. apply targets_split in Et' as (lo & hi & A1 & A2 & A3). cbn [a2ab ab2b] in *.
  destruct (verts_up 1 ltac:(lia)) as (W & codes' & Ec' & HV). assert (codes' = codes) as -> by congruence. pose proof W as (W1 & W2 & W3). specialize (W3 codes Ec). destruct (c_globals _ _ _ _ HC) as [LG NG].
  destruct (find_first (adj_ab2b (kept_adj old 0 1)) codes g (zfromto lo hi)) as (p & e & code & B1 & B2 & B3 & B4 & B5).
  - intros p Ip. destruct (mapM_in _ _ _ _ A3 Ip) as (e & Ee & _). exists e. pose proof (zget_bounds _ _ _ Ee) as Be. destruct (zget_in_range codes p ltac:(lia)) as (c & Eco). pose proof (in_up 1 e ltac:(lia) (zget_In _ _ _ Ee)) as Re. destruct (zget_in_range globals e ltac:(lia)) as (x & Ex). exists x, c. auto.
  - assert (In k es) as Ik by (apply HI; exists row; split; [exact Rk|]; apply (Permutation_in _ (Permutation_sym Pk)); left; reflexivity). destruct (mapM_in_inv _ _ _ _ A3 Ik) as (p & Ep & Ip). exists p, k. auto.
  - pose proof (NoDup_zget _ _ _ _ NG B3 Ek) as ->. destruct (HV v p k code) as (C1 & C2 & _); [exists lo, hi; split; [exact A1|]; split; [exact A2|]; apply in_zfromto, B1|exact B2|exact B4|]. change (1 + 1) with 2 in C2.
    exists g, lo, hi, k, (code_which_down code), w. split; [exact Eg|]. split; [exact A1|]. split; [exact A2|]. split; [exact B5|]. split; [lia|]. split; [apply (ent_range T HT HS 1 k row ltac:(lia) Rk)|]. split; [exact C2|]. split; [|exact G].
    destruct (edge_row T HT HS k row Rk) as (a & b & -> & Nab). destruct (row_ends T old HA k a b Rk) as [E0 E1]. destruct (goes_facts T HT HS globals keys rails HC v w G) as (Nvw & _). apply Permutation_sym, Permutation_length_2_inv in Pk as [E|E]; injection E as <- <-; assert (code_which_down code = 0 \/ code_which_down code = 1) as [Q|Q] by lia; rewrite Q in *; cbn [Z.sub Z.add Z.opp Z.pos_sub] in *; try assumption; congruence.
Qed.
End keys.
End asked.
