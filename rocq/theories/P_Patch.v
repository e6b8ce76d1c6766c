(** Replacing a part of a mesh of simplices by products without new vertices: what has to be checked of the vertex sets. *)
From Coq Require Import String Permutation Sorted.
From Verif Require Import Prelude M_Array P_Array M_Par M_Map S_Map P_Map P_Map2 M_Template S_Template P_Template M_Align S_Align P_Align M_Unique S_Unique P_Unique M_Adj S_Adj P_Adj S_Transit P_Transit S_Across P_Across
  M_Match S_Match P_Match M_Tags M_MeshAdj S_MeshAdj P_MeshAdj P_MeshAdj2 P_MeshAdj3 M_Build S_Build P_Build P_Box S_Unmap P_Unmap
  M_Modify S_Modify P_Refine M_RefineMesh S_RefineMesh S_Rebuild P_Rebuild P_Rebuild2 P_Rebuild3 P_RefineMesh1 P_RefineMesh2 P_RefineMesh3 P_RefineMesh4 P_RefineMesh5 S_Patch.
Local Open Scope Z_scope.

Lemma side_drops' d u : 2 <= d <= 3 -> 0 <= u < simplex_degree d (d - 1) -> NoDup (side_verts OMEGA_H_SIMPLEX d (d - 1) u) /\ zlen (side_verts OMEGA_H_SIMPLEX d (d - 1) u) = d /\ forall v, In v (side_verts OMEGA_H_SIMPLEX d (d - 1) u) -> 0 <= v <= d.
Proof.
  intros Hd Hu. assert (d = 2 \/ d = 3) as [->| ->] by lia.
  - change (simplex_degree 2 (2 - 1)) with 3 in Hu. assert (u = 0 \/ u = 1 \/ u = 2) as [->|[->| ->]] by lia; (split; [vm_compute; repeat constructor; cbn; intuition congruence|]); (split; [reflexivity|]); intros v Hv; vm_compute in Hv; intuition lia.
  - change (simplex_degree 3 (3 - 1)) with 4 in Hu. assert (u = 0 \/ u = 1 \/ u = 2 \/ u = 3) as [->|[->|[->| ->]]] by lia; (split; [vm_compute; repeat constructor; cbn; intuition congruence|]); (split; [reflexivity|]); intros v Hv; vm_compute in Hv; intuition lia.
Qed.
Lemma side_drop d hrow u row : 2 <= d <= 3 -> zlen hrow = d + 1 -> NoDup hrow -> 0 <= u < simplex_degree d (d - 1) -> Forall2 (fun v x => zget hrow v = Ok x) (side_verts OMEGA_H_SIMPLEX d (d - 1) u) row ->
  exists y, In y hrow /\ Permutation row (rm y hrow).
Proof.
  intros Hd Lh Nh Hu F2. destruct (side_drops' d u Hd Hu) as (Ns & Ls & _). assert (NoDup row) as Nr by (eapply zget_list_perm; eassumption). assert (zlen row = d) as Lr by (apply Forall2_len in F2; unfold zlen in *; lia).
  destruct (missing hrow row Nh ltac:(lia)) as (y & Iy & Jy). exists y. split; [exact Iy|]. apply incl_same; [exact Nr|apply rm_nodup, Nh| |rewrite (rm_len y hrow Nh Iy); lia]. intros x Hx. destruct (zget_list_in _ _ _ _ F2 Hx) as (v & _ & Ev). apply rm_in. split; [eapply zget_In, Ev|]. intros ->. contradiction.
Qed.
Lemma rm_perm' y l m : Permutation l m -> Permutation (rm y l) (rm y m).
Proof.
  intros P. unfold rm. induction P; cbn; [constructor| | |eapply Permutation_trans; eassumption].
  - destruct (negb (x =? y)); [apply perm_skip|]; assumption.
  - destruct (negb (y0 =? y)), (negb (x =? y)); try apply Permutation_refl. apply perm_swap.
Qed.
Lemma rm_cons' y l : ~ In y l -> rm y (y :: l) = l.
Proof. intros N. unfold rm at 1. cbn. rewrite Z.eqb_refl. cbn. apply rm_notin, N. Qed.
Section patch.
Context (T : topology) (HT : valid_topology T) (HS : simplicial T).
Context (r : Z -> numbering) (L : Z -> list (list Z)).
Local Notation D := (t_dim T).
Local Notation F := (t_family T).
Local Notation nv := (look (old2new (r 0))).
Definition PVL (d : Z) : list Z := concat (L d).
Definition kept_ent (d e : Z) (row : list Z) : Prop := In e (same2old (r d)) /\ ent_verts T d e row.
Context (RN : forall d, 0 <= d <= D -> renumbers (t_nents T d) (r d)).
Context (KP : S_Unmap.picks T (fun d => same2old (r d))).
Context (N0 : prods2new (r 0) = []).
Context (LL : forall d, 1 <= d <= D -> zlen (L d) = zlen (prods2new (r d))).
Context (HW : forall d row, 1 <= d <= D -> In row (L d) -> zlen row = d + 1 /\ NoDup row /\ forall v, In v row -> 0 <= v < nnew (r 0)).
Context (HO : forall d p p' row row', 1 <= d <= D -> zget (L d) p = Ok row -> zget (L d) p' = Ok row' -> Permutation row row' -> p = p').
Context (HX : forall d row e row0, 1 <= d <= D -> In row (L d) -> kept_ent d e row0 -> ~ Permutation row (map nv row0)).
Context (HD1 : forall d row y, 2 <= d <= D -> In row (L d) -> In y row -> (exists srow, In srow (L (d - 1)) /\ Permutation srow (rm y row)) \/ (exists s srow, kept_ent (d - 1) s srow /\ Permutation (map nv srow) (rm y row))).

Lemma dim0' : 0 <= 0 <= D. Proof. pose proof (v_dim T HT). lia. Qed.
Lemma olds_range d e : 0 <= d <= D -> In e (same2old (r d)) -> 0 <= e < t_nents T d.
Proof. intros Hd I. destruct KP as [K _]. apply (K d Hd), I. Qed.
Lemma olds_nd d : 0 <= d <= D -> NoDup (same2old (r d)).
Proof. intros Hd. destruct KP as [K _]. apply (K d Hd). Qed.
(** the vertices of what stays, stay *)
Lemma kept_part : forall n d e row v, d = Z.of_nat n -> 0 <= d <= D -> kept_ent d e row -> In v row -> In v (same2old (r 0)).
Proof.
  induction n as [|n IH]; intros d e row v Ed Hd (I & R) Iv.
  - change (Z.of_nat 0) with 0 in Ed. subst d. destruct R as [_ ->]. destruct Iv as [<-|[]]. exact I.
  - pose proof (v_dim T HT) as HD. destruct KP as [_ K]. assert (d = 1 \/ 2 <= d) as [->|H2] by lia.
    + rewrite ent_high in R by lia. apply P_Map.In_zget in Iv as (j & Ej). pose proof (zget_bounds _ _ _ Ej) as B. destruct R as [Lr R]. rewrite Lr in B. destruct (R j B) as (y & Ey & Ey'). assert (y = v) as -> by congruence.
      apply (K 1 e j v ltac:(lia) I). { change (1 - 1) with 0. rewrite (s_family T HS). change (element_degree OMEGA_H_SIMPLEX 1 0) with 2. lia. }
      rewrite (v_edges T HT). cbn [adj_ab2b]. rewrite (s_family T HS). change (element_degree OMEGA_H_SIMPLEX 1 (1 - 1)) with 2. exact Ey.
    + destruct (ent_facts T HT HS d e row Hd R) as (Nr & Lr & _). destruct (missing row [v] Nr ltac:(unfold zlen in *; cbn; lia)) as (y & Iy & Jy). assert (y <> v) as Ny by (intros ->; apply Jy; left; reflexivity).
      apply P_Map.In_zget in Iy as (j & Ej). pose proof (zget_bounds _ _ _ Ej) as Bj. destruct (opposite_side d j ltac:(lia) ltac:(lia)) as (u & Hu & Ns & Nj & Ls).
      pose proof (proj1 (ent_high T d e row ltac:(lia)) R) as R'. rewrite <- (deg0 T HS d) in R' by lia. rewrite <- (s_family T HS) in Hu, Ns, Nj, Ls.
      destruct (side_exists F d (d - 1) (t_verts T d) e u row ltac:(lia) ltac:(lia) R' Hu) as (srow & SD). pose proof SD as (hr & Rh & _ & F2). assert (hr = row) as -> by (apply (row_is_unique _ _ _ _ _ Rh R')).
      destruct (v_down T HT d ltac:(lia)) as (ab & codes & E & L1 & L2 & RF). destruct (RF e u srow SD) as (l & code & lrow & El & _ & Rl & Al & _). rewrite (deg0 T HS (d - 1)) in Rl, Al by lia.
      assert (In l (same2old (r (d - 1)))) as Il by (apply (K d e u l ltac:(lia) I Hu); rewrite E; exact El).
      pose proof (polygon_perm _ _ (polygon_spec (d - 1 + 1) code lrow srow ltac:(lia) (proj1 Rl) Al)) as P.
      apply (IH (d - 1) l lrow v ltac:(lia) ltac:(lia)); [split; [exact Il|apply ent_high; [lia|exact Rl]]|]. apply (Permutation_in _ (Permutation_sym P)).
      assert (NoDup srow) as Nsr by (eapply zget_list_perm; [exact F2|exact Nr|exact Ns]). assert (zlen srow = d) as Lsr by (apply Forall2_len in F2; unfold zlen in *; lia).
      assert (Permutation srow (rm y row)) as Q. { apply incl_same; [exact Nsr|apply rm_nodup, Nr| |rewrite (rm_len y row Nr (zget_In _ _ _ Ej)); lia]. intros x Hx. destruct (zget_list_in _ _ _ _ F2 Hx) as (w & Iw & Ew). apply rm_in. split; [eapply zget_In, Ew|]. intros ->. assert (w = j) as -> by (apply (NoDup_zget _ _ _ _ Nr Ew Ej)). contradiction. }
      apply (Permutation_in _ (Permutation_sym Q)), rm_in. split; [exact Iv|congruence].
Qed.
Lemma kept_vert d e row v : 0 <= d <= D -> kept_ent d e row -> In v row -> In v (same2old (r 0)).
Proof. intros Hd. apply (kept_part (Z.to_nat d)); lia. Qed.
Lemma nv_kept v : In v (same2old (r 0)) -> zget (old2new (r 0)) v = Ok (nv v) /\ In (nv v) (same2new (r 0)).
Proof. intros I. destruct (kept_number (t_nents T 0) (r 0) (RN 0 dim0') v I) as (i & y & E1 & E2 & E3 & _). unfold look. rewrite E3. split; [reflexivity|]. eapply zget_In, E2. Qed.
Lemma nv_kept_inj x y : In x (same2old (r 0)) -> In y (same2old (r 0)) -> nv x = nv y -> x = y.
Proof. intros Hx Hy E. apply (kept_apart (t_nents T 0) (r 0) (RN 0 dim0') x y (nv x) Hx Hy); [apply nv_kept, Hx|rewrite E; apply nv_kept, Hy]. Qed.

Lemma row_of_patch d p row : 1 <= d <= D -> row_is (d + 1) (PVL d) p row <-> zget (L d) p = Ok row.
Proof.
  intros Hd. unfold PVL. assert (forall t, In t (L d) -> zlen t = d + 1) as W by (intros t I; apply (HW d t Hd I)). split; intros R; [eapply row_concat|eapply concat_row]; try eassumption; lia.
Qed.
Lemma patch_cases d e' row' : 1 <= d <= D -> new_row T r PVL d e' row' <->
  (exists i e row, zget (same2old (r d)) i = Ok e /\ zget (same2new (r d)) i = Ok e' /\ ent_verts T d e row /\ row' = map nv row) \/
  (exists p, zget (prods2new (r d)) p = Ok e' /\ zget (L d) p = Ok row').
Proof.
  intros Hd. pose proof (v_dim T HT) as HD. unfold new_row. cbv zeta. rewrite (deg0 T HS d) by lia. split; (intros [H|H]; [left|right]).
  - destruct H as (e & row & I & E & R & F2). destruct (kept_number _ _ (RN d ltac:(lia)) e I) as (i & y & E1 & E2 & E3 & _). exists i, e, row. split; [exact E1|]. split; [congruence|]. split; [apply ent_high; [lia|exact R]|]. clear - F2. induction F2 as [|v v' l l' Ev _ IH]; [reflexivity|]. cbn [map]. rewrite <- IH. f_equal. unfold look. rewrite Ev. reflexivity.
  - destruct H as (p & E & R). exists p. split; [exact E|apply row_of_patch; [exact Hd|exact R]].
  - destruct H as (i & e & row & E1 & E2 & R & ->). exists e, row. assert (In e (same2old (r d))) as I by (eapply zget_In, E1). split; [exact I|]. split; [apply (rn_same _ _ (RN d ltac:(lia)) i); assumption|]. split; [apply ent_high in R; [exact R|lia]|].
    assert (forall v, In v row -> zget (old2new (r 0)) v = Ok (nv v)) as K by (intros v Iv; apply nv_kept, (kept_vert d e row v ltac:(lia)); [split; assumption|exact Iv]). clear - K. induction row as [|v row IH]; [constructor|]. constructor; [apply K; left; reflexivity|apply IH; intros w Hw; apply K; right; exact Hw].
  - destruct H as (p & E & R). exists p. split; [exact E|apply row_of_patch; [exact Hd|exact R]].
Qed.
Lemma patch_prod d row : 1 <= d <= D -> In row (L d) -> exists e', new_row T r PVL d e' row.
Proof.
  intros Hd I. apply P_Map.In_zget in I as (p & Ep). destruct (zget_in_range (prods2new (r d)) p) as (e' & Ee); [rewrite <- (LL d Hd); eapply zget_bounds, Ep|]. exists e'. apply patch_cases; [exact Hd|]. right. eauto.
Qed.
Lemma patch_kept d e row : 1 <= d <= D -> kept_ent d e row -> exists e', new_row T r PVL d e' (map nv row).
Proof.
  intros Hd [I R]. destruct (kept_number _ _ (RN d ltac:(lia)) e I) as (i & y & E1 & E2 & _). exists y. apply patch_cases; [exact Hd|]. left. eauto 8.
Qed.
Lemma patch_facts d e' row' : 1 <= d <= D -> new_row T r PVL d e' row' -> NoDup row' /\ zlen row' = d + 1 /\ forall v, In v row' -> 0 <= v < nnew (r 0).
Proof.
  intros Hd N. apply patch_cases in N; [|exact Hd]. destruct N as [(i & e & row & E1 & E2 & R & ->)|(p & _ & Ep)].
  - destruct (ent_facts T HT HS d e row ltac:(lia) R) as (Nr & Lr & _). assert (kept_ent d e row) as K by (split; [eapply zget_In, E1|exact R]). assert (Forall (fun v => In v (same2old (r 0))) row) as FV by (apply Forall_forall; intros v Hv; apply (kept_vert d e row v ltac:(lia) K Hv)).
    split; [apply (map_nodup nv (fun v => In v (same2old (r 0)))); [apply nv_kept_inj|exact FV|exact Nr]|]. split; [rewrite zlen_map; exact Lr|]. intros v Iv. apply in_map_iff in Iv as (x & <- & Ix). apply (new_iff _ _ (RN 0 dim0')). left. apply nv_kept. rewrite Forall_forall in FV. apply FV, Ix.
  - destruct (HW d row' Hd (zget_In _ _ _ Ep)) as (A & B & C). auto.
Qed.
Lemma patch_once d e1 e2 row1 row2 : 1 <= d <= D -> new_row T r PVL d e1 row1 -> new_row T r PVL d e2 row2 -> Permutation row1 row2 -> e1 = e2.
Proof.
  intros Hd M1 M2 P. apply patch_cases in M1; [|exact Hd]. apply patch_cases in M2; [|exact Hd].
  destruct M1 as [(i & e & row & E1 & E2 & R & ->)|(p & E1 & E2)], M2 as [(j & f & row' & F1 & F2 & R' & ->)|(q & F1 & F2)].
  - destruct (ent_facts T HT HS d e row ltac:(lia) R) as (Nr & _). destruct (ent_facts T HT HS d f row' ltac:(lia) R') as (Nr' & _).
    assert (Permutation row row') as Q. { apply (map_perm_inv nv (fun v => In v (same2old (r 0)))); [apply nv_kept_inj| | |exact Nr|exact Nr'|exact P]; apply Forall_forall; intros v Hv; [apply (kept_vert d e row v ltac:(lia))|apply (kept_vert d f row' v ltac:(lia))]; try assumption; (split; [eapply zget_In; eassumption|assumption]). }
    assert (e = f) as -> by (apply (P_RefineMesh1.once T HS d e f row row'); [lia|assumption|assumption|exact Q]). assert (i = j) as <- by (apply (NoDup_zget _ _ _ _ (olds_nd d ltac:(lia)) E1 F1)). congruence.
  - exfalso. apply (HX d row2 e row Hd (zget_In _ _ _ F2)); [split; [eapply zget_In, E1|exact R]|apply Permutation_sym, P].
  - exfalso. apply (HX d row1 f row' Hd (zget_In _ _ _ E2)); [split; [eapply zget_In, F1|exact R']|exact P].
  - assert (p = q) as <- by (apply (HO d p q row1 row2 Hd E2 F2 P)). congruence.
Qed.
Lemma patch_fits : fits T r PVL.
Proof.
  pose proof (v_dim T HT) as HD. constructor; [exact RN|exact KP| |].
  - intros d Hd. rewrite (deg0 T HS d) by lia. assert (forall row, In row (L d) -> zlen row = d + 1) as W by (intros row I; apply (HW d row Hd I)). assert (zlen (PVL d) = zlen (prods2new (r d)) * (d + 1)) as LP by (unfold PVL; rewrite (zlen_concat_const (d + 1) _ W), (LL d Hd); reflexivity).
    split; [exact LP|]. split.
    + intros p row R. apply row_of_patch in R; [|exact Hd]. apply (HW d row Hd (zget_In _ _ _ R)).
    + intros v Hv. destruct (In_row (d + 1) (PVL d) _ v ltac:(lia) LP Hv) as (p & row & R & _ & Iv). apply row_of_patch in R; [|exact Hd]. apply (HW d row Hd (zget_In _ _ _ R)), Iv.
  - intros d p u row Hd (hrow & R & Hu & F2). rewrite (deg0 T HS d) in R by lia. apply row_of_patch in R; [|lia]. apply zget_In in R. rewrite (s_family T HS) in Hu, F2. change (element_degree OMEGA_H_SIMPLEX d (d - 1)) with (simplex_degree d (d - 1)) in Hu.
    destruct (HW d hrow ltac:(lia) R) as (Lh & NDh & _). destruct (side_drop d hrow u row ltac:(lia) Lh NDh Hu F2) as (y & Iy & P).
    assert (exists s srow, new_row T r PVL (d - 1) s srow /\ Permutation srow (rm y hrow)) as (s & srow & N & Ps).
    { destruct (HD1 d hrow y Hd R Iy) as [(srow & I & Q)|(s & srow & K & Q)].
      - destruct (patch_prod (d - 1) srow ltac:(lia) I) as (s & N). eauto.
      - destruct (patch_kept (d - 1) s srow ltac:(lia) K) as (s' & N). eauto. }
    exists s, srow. split; [exact N|]. assert (Permutation srow row) as Q by (apply (Permutation_trans Ps), Permutation_sym, P). destruct (patch_facts (d - 1) s srow ltac:(lia) N) as (_ & Ls & _).
    split; [apply perm_polygon; [exact Q|lia]|]. intros s' srow' N' SP. apply (patch_once (d - 1) s' s srow' srow ltac:(lia) N' N). apply (Permutation_trans (polygon_perm _ _ SP)), Permutation_sym, Q.
Qed.

Section made.
Context (HP : forall d row, 1 <= d < D -> In row (L d) -> (exists row', In row' (L (d + 1)) /\ incl row row') \/ (exists e' row', kept_ent (d + 1) e' row' /\ incl row (map nv row'))).
Context (HQ : forall d e row, 1 <= d < D -> kept_ent d e row -> (exists row', In row' (L (d + 1)) /\ incl (map nv row) row') \/ (exists e' row', kept_ent (d + 1) e' row' /\ incl (map nv row) (map nv row'))).
Context (T' : topology) (RB : rebuilt T r PVL T').
Lemma patch_ent d e' row' : 1 <= d <= D -> ent_verts T' d e' row' <-> new_row T r PVL d e' row'.
Proof. intros Hd. pose proof (v_dim T HT). destruct RB as (_ & _ & _ & H4). rewrite ent_high by lia. rewrite <- (deg0 T HS d) by lia. apply H4, Hd. Qed.
Lemma patch_simplicial : simplicial T'.
Proof.
  destruct RB as (B1 & B2 & B3 & B4). pose proof (v_dim T HT) as HD. constructor.
  - rewrite B1. apply (s_family T HS).
  - rewrite B2. intros d e e' row row' Hd R R' P. apply (patch_ent d _ _ Hd) in R. apply (patch_ent d _ _ Hd) in R'. exact (patch_once d e e' row row' Hd R R' P).
  - rewrite B2. intros d e' row' Hd R. apply (patch_ent d _ _ ltac:(lia)) in R. apply patch_cases in R; [|lia].
    assert ((exists row, In row (L (d + 1)) /\ incl row' row) \/ (exists e1 row, kept_ent (d + 1) e1 row /\ incl row' (map nv row))) as [(row & I & Inc)|(e1 & row & K & Inc)].
    { destruct R as [(i & e & row & E1 & E2 & R & ->)|(p & _ & Ep)]; [apply (HQ d e row Hd); split; [eapply zget_In, E1|exact R]|apply (HP d row' Hd), (zget_In _ _ _ Ep)]. }
    + destruct (patch_prod (d + 1) row ltac:(lia) I) as (e'' & N). exists e'', row. split; [apply patch_ent; [lia|exact N]|exact Inc].
    + destruct (patch_kept (d + 1) e1 row ltac:(lia) K) as (e'' & N). exists e'', (map nv row). split; [apply patch_ent; [lia|exact N]|exact Inc].
Qed.
Section origins.
Context {O : Type} (K : Z -> O) (KI : forall e e', K e = K e' -> e = e') (origs : Z -> list O).
Context (ON : forall d, 0 <= d <= D -> NoDup (origs d)) (OK : forall d e, 0 <= d <= D -> ~ In (K e) (origs d)) (OL : forall d, 0 <= d <= D -> zlen (origs d) = zlen (prods2new (r d))).
Definition patch_from (d e' : Z) : O := assoc (combine (same2new (r d) ++ prods2new (r d)) (map K (same2old (r d)) ++ origs d)) e' (K (-1)).
Lemma patch_from_same d i e e' : 0 <= d <= D -> zget (same2old (r d)) i = Ok e -> zget (same2new (r d)) i = Ok e' -> patch_from d e' = K e.
Proof.
  intros Hd E E'. unfold patch_from. apply assoc_at with (i := i); [apply (all_nodup _ _ (RN d Hd))|rewrite zget_app_l by (eapply zget_bounds, E'); exact E'|]. rewrite zget_app_l by (rewrite zlen_map; eapply zget_bounds, E). rewrite zget_map, E. reflexivity.
Qed.
Lemma patch_from_prod d p o e' : 0 <= d <= D -> zget (origs d) p = Ok o -> zget (prods2new (r d)) p = Ok e' -> patch_from d e' = o.
Proof.
  intros Hd E E'. pose proof (zget_bounds _ _ _ E) as B. unfold patch_from. apply assoc_at with (i := zlen (same2old (r d)) + p); [apply (all_nodup _ _ (RN d Hd))| |].
  - rewrite zget_app_r by (rewrite (rn_len _ _ (RN d Hd)); lia). rewrite (rn_len _ _ (RN d Hd)). replace (zlen (same2old (r d)) + p - zlen (same2old (r d))) with p by lia. exact E'.
  - rewrite zget_app_r by (rewrite zlen_map; lia). rewrite zlen_map. replace (zlen (same2old (r d)) + p - zlen (same2old (r d))) with p by lia. exact E.
Qed.
Lemma patch_who d e' : 0 <= d <= D -> 0 <= e' < nnew (r d) -> (exists i e, zget (same2old (r d)) i = Ok e /\ zget (same2new (r d)) i = Ok e' /\ patch_from d e' = K e) \/ (exists p o, zget (origs d) p = Ok o /\ zget (prods2new (r d)) p = Ok e' /\ patch_from d e' = o).
Proof.
  intros Hd He. apply (new_iff _ _ (RN d Hd)) in He as [I|I]; apply P_Map.In_zget in I as (i & Ei); pose proof (zget_bounds _ _ _ Ei) as B; [left|right].
  - destruct (zget_in_range (same2old (r d)) i) as (e & Ee); [rewrite <- (rn_len _ _ (RN d Hd)); exact B|]. exists i, e. split; [exact Ee|]. split; [exact Ei|]. eapply patch_from_same; eassumption.
  - destruct (zget_in_range (origs d) i) as (o & Eo); [rewrite (OL d Hd); exact B|]. exists i, o. split; [exact Eo|]. split; [exact Ei|]. eapply patch_from_prod; eassumption.
Qed.
Context (makes : Z -> O -> Prop) (verts : Z -> O -> list Z -> Prop).
Context (HM : forall d o, 0 <= d <= D -> makes d o <-> (exists e, o = K e /\ In e (same2old (r d))) \/ In o (origs d)).
Context (HVK : forall d e row, 0 <= d <= D -> kept_ent d e row -> verts d (K e) (map nv row)).
Context (HVP : forall d p o row, 1 <= d <= D -> zget (origs d) p = Ok o -> zget (L d) p = Ok row -> verts d o row).
Lemma patch_assembled : assembled T makes verts patch_from T'.
Proof.
  destruct RB as (B1 & B2 & B3 & B4). pose proof (v_dim T HT) as HD. constructor; [exact B1|exact B2| |].
  - intros d e' Hd He. rewrite (B3 d Hd) in He. destruct (patch_who d e' Hd He) as [(i & e & E1 & E2 & ->)|(p & o & E1 & E2 & ->)].
    + assert (In e (same2old (r d))) as I by (eapply zget_In, E1). split; [apply (HM d _ Hd); left; eauto|]. destruct (Z.eq_dec d 0) as [->|].
      * exists [e']. split; [split; [rewrite (B3 0 dim0'); exact He|reflexivity]|]. replace [e'] with (map nv [e]) by (cbn [map]; unfold look; rewrite (rn_same _ _ (RN 0 dim0') i e e' E1 E2); reflexivity). apply HVK; [exact Hd|]. split; [exact I|]. split; [apply olds_range; assumption|reflexivity].
      * destruct (ent_row T HT HS d e Hd (olds_range d e Hd I)) as (row & R). exists (map nv row). split; [apply patch_ent; [lia|]; apply patch_cases; [lia|]; left; eauto 8|apply HVK; [exact Hd|split; assumption]].
    + split; [apply (HM d _ Hd); right; eapply zget_In, E1|]. destruct (Z.eq_dec d 0) as [->|]; [rewrite N0 in E2; pose proof (zget_bounds _ _ _ E2) as B; unfold zlen in B; cbn in B; lia|].
      destruct (zget_in_range (L d) p) as (row & Er); [rewrite (LL d ltac:(lia)), <- (OL d Hd); eapply zget_bounds, E1|]. exists row. split; [|apply (HVP d p o row ltac:(lia)); assumption]. apply patch_ent; [lia|]. apply patch_cases; [lia|]. right. eauto.
  - intros d o Hd M. assert (forall e'', 0 <= e'' < t_nents T' d -> 0 <= e'' < nnew (r d)) as RG by (intros e'' H; rewrite (B3 d Hd) in H; exact H). apply (HM d o Hd) in M as [(e & -> & I)|I].
    + destruct (kept_number _ _ (RN d Hd) e I) as (i & y & E1 & E2 & _ & Hy). exists y. split; [rewrite (B3 d Hd); exact Hy|]. split; [eapply patch_from_same; eassumption|]. intros e'' He'' Ef. destruct (patch_who d e'' Hd (RG e'' He'')) as [(j & e2 & F1 & F2 & F3)|(p & o & F1 & F2 & F3)].
      * rewrite F3 in Ef. apply KI in Ef as ->. assert (i = j) as <- by (apply (NoDup_zget _ _ _ _ (olds_nd d Hd) E1 F1)). congruence.
      * exfalso. rewrite F3 in Ef. subst o. apply (OK d e Hd), (zget_In _ _ _ F1).
    + pose proof I as I'. apply P_Map.In_zget in I as (p & Ep). destruct (zget_in_range (prods2new (r d)) p) as (y & Ey); [rewrite <- (OL d Hd); eapply zget_bounds, Ep|]. exists y. split; [rewrite (B3 d Hd); apply (new_iff _ _ (RN d Hd)); right; eapply zget_In, Ey|]. split; [eapply patch_from_prod; eassumption|].
      intros e'' He'' Ef. destruct (patch_who d e'' Hd (RG e'' He'')) as [(j & e2 & F1 & F2 & F3)|(q & o1 & F1 & F2 & F3)]; rewrite F3 in Ef; [subst o; exfalso; apply (OK d e2 Hd I')|]. subst o1. assert (p = q) as <- by (apply (NoDup_zget _ _ _ _ (ON d Hd) Ep F1)). congruence.
Qed.
End origins.
End made.
End patch.
