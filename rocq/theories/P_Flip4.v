(** Swapping edges of a 2D mesh: together. *)
From Coq Require Import String Permutation Sorted.
From Verif Require Import Prelude M_Array P_Array M_Par M_Scan S_Scan P_Scan P_Fan S_Sort M_Sort M_Map S_Map P_Map P_Map2 M_Template S_Template P_Template M_Align S_Align P_Align M_Graph S_Graph P_Graph M_Unique S_Unique P_Unique M_Adj S_Adj P_Adj S_Transit P_Transit S_Across P_Across
  M_Match S_Match P_Match M_Tags M_MeshAdj S_MeshAdj P_MeshAdj P_MeshAdj2 P_MeshAdj3 M_Build S_Build P_Build P_Box S_Unmap P_Unmap P_Mark P_Coarsen P_Mark
  M_Modify S_Modify P_Modify P_Modify2 S_Swap3d M_Swap2d S_Swap2d P_Swap2d S_Coarsen M_Refine S_Refine P_Refine P_SwapTopo M_RefineMesh S_RefineMesh S_Rebuild P_Rebuild P_Rebuild2 P_Rebuild3 P_RefineMesh1 P_RefineMesh2 P_RefineMesh3 P_RefineMesh4 P_RefineMesh5 P_RefineMesh6 P_RefineMesh7 P_RefineMesh8 S_Patch P_Patch M_Flip S_Flip P_Flip1 P_Flip2 P_Flip3 P_Loop.
Local Open Scope Z_scope.

(** offsets of products, the same number for each key *)
Definition steps_of (n w : Z) : list Z := map (fun i => 0 + i * w) (zrange (n + 1)).
Lemma steps_get n w i : 0 <= i <= n -> zget (steps_of n w) i = Ok (i * w).
Proof. intros H. unfold steps_of. rewrite zget_map, zget_zrange by lia. reflexivity. Qed.
Lemma steps_facts n w : 0 <= n -> 0 <= w -> is_fan (steps_of n w) /\ zlen (steps_of n w) = n + 1 /\ last_of (steps_of n w) = Ok (n * w).
Proof.
  intros Hn Hw. assert (zlen (steps_of n w) = n + 1) as L by (unfold steps_of, zlen; rewrite map_length, zrange_length; lia). split; [split|split; [exact L|]].
  - rewrite steps_get by lia. reflexivity.
  - intros i lo hi E1 E2. pose proof (zget_bounds _ _ _ E1) as B1. pose proof (zget_bounds _ _ _ E2) as B2. rewrite steps_get in E1 by lia. rewrite steps_get in E2 by lia. injection E1 as <-. injection E2 as <-. nia.
  - unfold last_of. rewrite L, steps_get by lia. f_equal. f_equal. lia.
Qed.
Lemma steps_group n w a b : 0 <= a < n -> a * w <= b < (a + 1) * w -> in_group (steps_of n w) a b.
Proof. intros Ha Hb. exists (a * w), ((a + 1) * w). rewrite !steps_get by lia. auto. Qed.
Lemma map_tabulate {A B} (l : list A) (f : A -> res B) (g : A -> B) : (forall x, In x l -> f x = Ok (g x)) -> tabulate (zlen l) (fun i => x <- zget l i ;; f x) = Ok (map g l).
Proof.
  intros H. unfold tabulate. assert (forall is, (forall i, In i is -> 0 <= i < zlen l) -> mapM (fun i => x <- zget l i ;; f x) is = (xs <- mapM (zget l) is ;; Ok (map g xs))) as K.
  { induction is as [|i is IH]; intros BB; [reflexivity|]. cbn [mapM]. destruct (zget_in_range l i (BB i (or_introl eq_refl))) as (x & E). rewrite E. cbn [bind]. rewrite (H x (zget_In _ _ _ E)). cbn [bind]. rewrite IH by (intros; apply BB; right; assumption). destruct (mapM (zget l) is); reflexivity. }
  rewrite K by (intros i I; apply in_zrange in I; exact I). assert (mapM (zget l) (zrange (zlen l)) = Ok l) as ->; [|reflexivity].
  assert (exists l', mapM (zget l) (zrange (zlen l)) = Ok l') as (l' & E). { apply mapM_total'. intros i I. apply in_zrange in I. apply zget_in_range, I. }
  rewrite E. f_equal. assert (zlen l' = zlen l) as L by (unfold zlen; rewrite (mapM_length _ _ _ E), zrange_length; unfold zlen; lia). apply list_eq_zget; [exact L|]. intros i Hi. destruct (zget_in_range l' i ltac:(lia)) as (x & Ex). pose proof (P_Rebuild.Forall2_at _ _ _ (proj1 (mapM_ok _ _ _) E) i i x (zget_zrange (zlen l) i ltac:(lia)) Ex) as Ey. congruence.
Qed.

Section found.
Context (T : topology) (HT : valid_topology T) (HS : simplicial T) (old : amesh) (HR : ready T old).
Context (HA : forall a b, 0 <= a <= t_dim T -> 0 <= b <= t_dim T -> a <> b -> P_MeshAdj.val T a b = Ok (kept_adj old a b)).
Context (keys : list Z) (HW : swappable T keys).
Let D2 : t_dim T = 2 := w_dim T keys HW.
Let HK : splittable T keys := w_apart T keys HW.
Local Notation n0 := (t_nents T 0).
Local Notation nk := (zlen keys).
Definition kp (d : Z) : list Z := if d =? 1 then steps_of nk 1 else steps_of nk 2.
Lemma flip_count d : 1 <= d <= 2 -> zlen (flip_origs keys d) = nk * d.
Proof.
  intros Hd. assert (d = 1 \/ d = 2) as [->| ->] by lia; unfold flip_origs; cbn [Z.eqb Pos.eqb]; [rewrite zlen_map; lia|]. clear. induction keys as [|k l IH]; [reflexivity|]. cbn [flat_map]. rewrite zlen_app, IH. unfold zlen. cbn [length]. lia.
Qed.
(** what the loop over keys gives *)
Lemma flips_found : exists codes L, adj_codes (kept_adj old 1 2) = Some codes /\
  swap2d_topology (adj_a2ab (kept_adj old 1 2)) (adj_ab2b (kept_adj old 1 2)) codes (adj_ab2b (kept_adj old 2 0)) (adj_ab2b (kept_adj old 1 0)) keys = Ok ((kp 1, kp 2), (concat (L 1), concat (L 2))) /\
  forall d, 1 <= d <= 2 -> Forall2 (swap_verts T d) (flip_origs keys d) (L d).
Proof.
  destruct (up_ok T HT HS old HA 2 ltac:(lia)) as [[_ (codes & EC & _)] _]. rewrite (old_verts T HT old HA 2), (old_verts T HT old HA 1) by lia.
  set (key := swap2d_key (adj_a2ab (kept_adj old 1 2)) (adj_ab2b (kept_adj old 1 2)) codes (t_verts T 2) (t_verts T 1)).
  set (flip := fun k => match key k with Ok p => p | _ => ([], []) end).
  assert (forall k, In k keys -> exists a b x y t u, diamond T k a b x y t u /\ key k = Ok ([x; y], [[b; x; y]; [a; y; x]])) as K.
  { intros k I. destruct (w_between T keys HW k I) as (a & b & x & y & t & u & H). exists a, b, x, y, t, u. split; [exact H|]. destruct (dia_sides T HT HS D2 old HA k a b x y t u codes H EC) as (tris & S). exact (key_ok _ _ _ _ _ _ _ _ _ _ _ S). }
  assert (forall k, In k keys -> key k = Ok (flip k)) as KF by (intros k I; destruct (K k I) as (a & b & x & y & t & u & _ & E); unfold flip; rewrite E; reflexivity).
  exists codes, (fun d => if d =? 1 then map (fun k => fst (flip k)) keys else concat (map (fun k => snd (flip k)) keys)). split; [exact EC|]. split.
  - unfold swap2d_topology. fold key. rewrite (map_tabulate keys key flip KF). cbn [bind]. cbn [Z.eqb Pos.eqb]. unfold kp. cbn [Z.eqb Pos.eqb]. unfold steps_of. rewrite !map_map. do 3 f_equal.
    clear. induction keys as [|k l IH]; [reflexivity|]. cbn [map concat]. rewrite IH, concat_app. reflexivity.
  - intros d Hd. assert (d = 1 \/ d = 2) as [->| ->] by lia; unfold flip_origs; cbn [Z.eqb Pos.eqb].
    + assert (forall k, In k keys -> swap_verts T 1 (Swapped k 0) (fst (flip k))) as K1.
      { intros k I. destruct (K k I) as (a & b & x & y & t & u & H & E). exists a, b, x, y, t, u. split; [exact H|]. unfold flip. rewrite E. reflexivity. }
      revert K1. clear. induction keys as [|k l IH]; intros K1; [constructor|]. cbn [map]. constructor; [apply K1; left; reflexivity|]. apply IH. intros k' I. apply K1. right. exact I.
    + apply Forall2_flat. assert (forall k, In k keys -> Forall2 (swap_verts T 2) [Swapped k 0; Swapped k 1] (snd (flip k))) as K2.
      { intros k I. destruct (K k I) as (a & b & x & y & t & u & H & E). unfold flip. rewrite E. cbn [snd]. constructor; [|constructor; [|constructor]]; exists a, b, x, y, t, u; (split; [exact H|reflexivity]). }
      revert K2. clear. induction keys as [|k l IH]; intros K2; [constructor|]. cbn [map]. constructor; [apply K2; left; reflexivity|]. apply IH. intros k' I. apply K2. right. exact I.
Qed.
(** the numberings *)
Lemma flips_numbered : exists r, r 0 = same_numbers n0 /\ forall d, 1 <= d <= 2 -> modify_ents_adapt (view old) d 1 keys (kp d) = Ok (r d) /\
  good_numbering (view old) d (only_at 1 keys) (only_at 1 (kp d)) (nk * d) (fun x => ~ exists k, In k keys /\ has_edge T d x k) (r d).
Proof.
  pose proof (zlen_nonneg keys) as Hn. destruct (steps_facts nk 1 Hn ltac:(lia)) as (F1 & L1 & E1). destruct (steps_facts nk 2 Hn ltac:(lia)) as (F2 & L2 & E2).
  destruct (numbered T HT HS old HR HA keys HK 1 (steps_of nk 1) (nk * 1) ltac:(lia) F1 L1 E1) as (r1 & M1 & G1). destruct (numbered T HT HS old HR HA keys HK 2 (steps_of nk 2) (nk * 2) ltac:(lia) F2 L2 E2) as (r2 & M2 & G2).
  exists (fun d => if d =? 0 then same_numbers n0 else if d =? 1 then r1 else r2). split; [reflexivity|]. intros d Hd. assert (d = 1 \/ d = 2) as [->| ->] by lia; cbn; auto.
Qed.
Context (r : Z -> numbering) (L : Z -> list (list Z)).
Context (R0 : r 0 = same_numbers n0).
Context (RG : forall d, 1 <= d <= 2 -> good_numbering (view old) d (only_at 1 keys) (only_at 1 (kp d)) (nk * d) (fun x => ~ exists k, In k keys /\ has_edge T d x k) (r d)).
Context (FO : forall d, 1 <= d <= 2 -> Forall2 (swap_verts T d) (flip_origs keys d) (L d)).
Lemma n0_ok : 0 <= n0. Proof. apply (v_nents T HT 0). lia. Qed.
Lemma q_rn d : 0 <= d <= 2 -> renumbers (t_nents T d) (r d).
Proof.
  intros Hd. destruct (Z.eq_dec d 0) as [->|]; [rewrite R0; apply same_renumbers, n0_ok|]. destruct (RG d ltac:(lia)) as (_ & _ & G3 & _ & G5 & _ & G7 & G8 & _). constructor; [exact G3|exact G5| |exact G8]. rewrite G7. cbn. apply (old_nents T old HR). lia.
Qed.
Lemma q_ko d x : 0 <= d <= 2 -> In x (same2old (r d)) <-> 0 <= x < t_nents T d /\ no_key T keys d x.
Proof.
  intros Hd. destruct (Z.eq_dec d 0) as [->|].
  - rewrite R0. cbn [same2old same_numbers]. rewrite in_zrange. split; [|tauto]. intros H. split; [exact H|]. intros k _. apply (has_0 T HT HS).
  - destruct (RG d ltac:(lia)) as (G1 & _). rewrite G1. cbn. rewrite (old_nents T old HR) by lia. split; intros [A B]; (split; [exact A|]); [intros k I H; apply B; eauto|intros (k & I & H); apply (B k I H)].
Qed.
Lemma q_kn d : 0 <= d <= 2 -> NoDup (same2old (r d)).
Proof. intros Hd. destruct (Z.eq_dec d 0) as [->|]; [rewrite R0; apply zrange_NoDup|]. destruct (RG d ltac:(lia)) as (_ & G2 & _). apply strict_nodup, G2. Qed.
Lemma q_po d : 0 <= d <= 2 -> zlen (prods2new (r d)) = zlen (flip_origs keys d).
Proof. intros Hd. destruct (Z.eq_dec d 0) as [->|]; [rewrite R0; reflexivity|]. destruct (RG d ltac:(lia)) as (_ & _ & _ & G4 & _). rewrite G4, flip_count by lia. reflexivity. Qed.
Lemma q_nn d : 0 <= d <= 2 -> 0 <= nnew (r d).
Proof. intros Hd. destruct (Z.eq_dec d 0) as [->|]; [rewrite R0; apply n0_ok|]. destruct (RG d ltac:(lia)) as (_ & _ & _ & _ & _ & _ & _ & _ & _ & _ & _ & G12). rewrite G12. pose proof (zlen_nonneg (same2old (r d))). pose proof (zlen_nonneg keys). nia. Qed.
Lemma q_fits : fits T r (PVL L).
Proof. exact (flip_fits T HT HS keys HW r L R0 q_rn q_ko q_kn q_po FO). Qed.
Definition came (d e' : Z) : swap_origin := patch_from r Stays (flip_origs keys) d e'.
Lemma q_new T' : rebuilt T r (PVL L) T' -> simplicial T' /\ assembled T (swap_makes T keys) (swap_verts T) came T'.
Proof.
  intros RB. split.
  - refine (patch_simplicial T HT HS r L _ _ _ _ _ _ _ _ _ T' RB).
    + exact (h_rn T keys HW r L q_rn q_ko q_kn q_po FO).
    + exact (flip_picks T HT HS keys HW r L q_rn q_ko q_kn q_po FO).
    + exact (h_len T keys HW r L q_rn q_ko q_kn q_po FO).
    + exact (h_rows T HT HS keys HW r L R0 q_rn q_ko q_kn q_po FO).
    + exact (h_once T HT HS keys HW r L q_rn q_ko q_kn q_po FO).
    + exact (h_new T HT HS keys HW r L R0 q_rn q_ko q_kn q_po FO).
    + exact (h_sides T HT HS keys HW r L R0 q_rn q_ko q_kn q_po FO).
    + exact (h_up T HT HS keys HW r L q_rn q_ko q_kn q_po FO).
    + exact (h_kept_up T HT HS keys HW r L R0 q_rn q_ko q_kn q_po FO).
  - refine (patch_assembled T HT HS r L (h_rn T keys HW r L q_rn q_ko q_kn q_po FO) (flip_picks T HT HS keys HW r L q_rn q_ko q_kn q_po FO) (h_n0 T r R0) (h_len T keys HW r L q_rn q_ko q_kn q_po FO) (h_rows T HT HS keys HW r L R0 q_rn q_ko q_kn q_po FO) (h_once T HT HS keys HW r L q_rn q_ko q_kn q_po FO)
      (h_new T HT HS keys HW r L R0 q_rn q_ko q_kn q_po FO) (h_sides T HT HS keys HW r L R0 q_rn q_ko q_kn q_po FO) (h_up T HT HS keys HW r L q_rn q_ko q_kn q_po FO) (h_kept_up T HT HS keys HW r L R0 q_rn q_ko q_kn q_po FO) T' RB Stays _ (flip_origs keys) _ _ _ (swap_makes T keys) (swap_verts T) _ _ _).
    + intros e e' E. injection E. auto.
    + intros d _. apply (flip_origs_nodup T keys HW).
    + intros d e _ I. apply (flip_origs_in T keys) in I as [_ N]. apply (N e). reflexivity.
    + intros d Hd. symmetry. apply q_po. lia.
    + intros d o Hd. rewrite (flip_origs_in T keys). destruct o as [e|k p].
      * split; [intros M; left; exists e; split; [reflexivity|]; apply q_ko; [lia|exact M]|]. intros [(e0 & E & I)|[M _]]; [|exact M]. injection E as <-. apply q_ko in I; [exact I|lia].
      * split; [intros M; right; split; [exact M|discriminate]|]. intros [(e0 & E & _)|[M _]]; [discriminate|exact M].
    + intros d e row Hd [_ R]. rewrite (nv_id T HT HS keys HW r L R0 q_rn q_ko q_kn q_po FO d e row ltac:(lia) R). exact R.
    + intros d p o row Hd Eo Er. exact (Forall2_at _ _ _ (FO d ltac:(lia)) p o row Eo Er).
Qed.
Lemma came_cases d e' : 1 <= d <= 2 -> 0 <= e' < nnew (r d) -> (exists i e, zget (same2old (r d)) i = Ok e /\ zget (same2new (r d)) i = Ok e' /\ came d e' = Stays e) \/ (exists p o, zget (flip_origs keys d) p = Ok o /\ zget (prods2new (r d)) p = Ok e' /\ came d e' = o).
Proof.
  intros Hd He. refine (patch_who T r L (h_rn T keys HW r L q_rn q_ko q_kn q_po FO) (h_len T keys HW r L q_rn q_ko q_kn q_po FO) (h_rows T HT HS keys HW r L R0 q_rn q_ko q_kn q_po FO) (h_once T HT HS keys HW r L q_rn q_ko q_kn q_po FO)
      (h_new T HT HS keys HW r L R0 q_rn q_ko q_kn q_po FO) (h_sides T HT HS keys HW r L R0 q_rn q_ko q_kn q_po FO) (h_up T HT HS keys HW r L q_rn q_ko q_kn q_po FO) (h_kept_up T HT HS keys HW r L R0 q_rn q_ko q_kn q_po FO) Stays _ (flip_origs keys) _ _ _ d e' ltac:(lia) He).
  - intros e1 e2 E. injection E. auto.
  - intros d0 _. apply (flip_origs_nodup T keys HW).
  - intros d0 e _ I. apply (flip_origs_in T keys) in I as [_ N]. apply (N e). reflexivity.
  - intros d0 H0. symmetry. apply q_po. lia.
Qed.
(** values of tags *)
Lemma orig_key d p o : 1 <= d <= 2 -> zget (flip_origs keys d) p = Ok o -> exists k q, zget keys (p / d) = Ok k /\ o = Swapped k q.
Proof.
  intros Hd E. assert (d = 1 \/ d = 2) as [->| ->] by lia; unfold flip_origs in E; cbn [Z.eqb Pos.eqb] in E.
  - rewrite zget_map in E. destruct (zget keys p) as [k| |] eqn:Ek; try discriminate. cbn in E. injection E as <-. rewrite Z.div_1_r. eauto.
  - revert p E. clear. induction keys as [|k l IH]; intros p E; [pose proof (zget_bounds _ _ _ E) as B; unfold zlen in B; cbn in B; lia|]. pose proof (zget_bounds _ _ _ E) as B. cbn [flat_map] in E. destruct (Z_lt_dec p 2) as [H|H].
    + assert (p = 0 \/ p = 1) as [->| ->] by lia; cbn in E; injection E as <-; [exists k, 0|exists k, 1]; auto.
    + change (flat_map (fun k => [Swapped k 0; Swapped k 1]) (k :: l)) with ([Swapped k 0; Swapped k 1] ++ flat_map (fun k => [Swapped k 0; Swapped k 1]) l) in *. rewrite zget_app_r in E by (unfold zlen; cbn; lia). change (zlen [Swapped k 0; Swapped k 1]) with 2 in E. destruct (IH (p - 2) E) as (k' & q & Ek & Eo). exists k', q. split; [|exact Eo]. replace (p / 2) with ((p - 2) / 2 + 1) by (replace p with (p - 2 + 1 * 2) at 2 by lia; rewrite Z.div_add by lia; reflexivity).
      pose proof (zget_bounds _ _ _ Ek) as Bk. change (k :: l) with ([k] ++ l). rewrite zget_app_r by (unfold zlen; cbn; lia). change (zlen [k]) with 1. rewrite <- Ek. f_equal. lia.
Qed.
Lemma values_right {A} ncomps (data : Z -> list A) d : 1 <= d <= 2 -> 0 <= ncomps -> (forall d, 0 <= d <= 2 -> zlen (data d) = t_nents T d * ncomps) ->
  exists l, inherit_swap keys ncomps data d (kp d) (r d) = Ok l /\ takes_from (nnew (r d)) ncomps data (fun e' => swap_source d (came d e')) l.
Proof.
  intros Hd Hc Hdata. unfold inherit_swap.
  destruct (unmap_spec keys (data 1) ncomps Hc) as (kl & Ek & Lk & Gk). { intros b Hb. pose proof (k_edges T keys HK b Hb) as B. rewrite (Hdata 1) by lia. clear - B Hc. split; [lia|nia]. }
  rewrite Ek. cbn [bind]. pose proof (zlen_nonneg keys) as Hn.
  assert (is_fan (kp d) /\ zlen (kp d) = nk + 1 /\ last_of (kp d) = Ok (nk * d) /\ forall i, 0 <= i <= nk -> zget (kp d) i = Ok (i * d)) as (Fa & Lf & Ef & Gf).
  { assert (d = 1 \/ d = 2) as [->| ->] by (clear - Hd; lia); unfold kp; cbn [Z.eqb Pos.eqb]; [destruct (steps_facts nk 1 Hn ltac:(lia)) as (A1 & A2 & A3)|destruct (steps_facts nk 2 Hn ltac:(lia)) as (A1 & A2 & A3)]; (split; [exact A1|]); (split; [exact A2|]); (split; [exact A3|]); intros i Hi; apply steps_get; exact Hi. }
  destruct (expand_spec kl (kp d) ncomps Fa Hc ltac:(rewrite Lf, Lk; clear; lia)) as (n & pl & En & Ep & Lp & Gp). assert (n = nk * d) as -> by congruence. rewrite Ep. cbn [bind].
  assert (forall x, In x (same2old (r d)) -> 0 <= x < t_nents T d) as B by (intros x Hx; apply q_ko in Hx; [tauto|lia]).
  destruct (unmap_spec (same2old (r d)) (data d) ncomps Hc) as (sl & Es & Ls & Gs). { intros b Hb. apply B in Hb. rewrite (Hdata d) by (clear - Hd; lia). clear - Hb Hc. split; [lia|nia]. }
  assert (zlen (prods2new (r d)) = nk * d) as Np by (rewrite q_po, flip_count by (clear - Hd; lia); reflexivity).
  assert (renumbers (t_nents T d) (r d)) as RN by (apply q_rn; lia). assert (0 <= nnew (r d)) as NN by (apply q_nn; lia).
  destruct (join_spec ncomps (t_nents T d) (r d) true pl sl RN NN Hc ltac:(rewrite Np; exact Lp) Ls) as (l & Ej & Ll & J1 & J2). unfold join in Ej. rewrite (total_eq _ _ RN NN) in Ej. exists l. split.
  - apply bind_ok in Ej as (v0 & F0 & Ej). rewrite F0. cbn [bind]. apply bind_ok in Ej as (v2 & F2 & Ej). apply bind_ok in F2 as (v1 & F1 & F2). rewrite F1. cbn [bind]. rewrite Es. cbn [bind]. rewrite F2. cbn [bind]. exact Ej.
  - split; [exact Ll|]. intros e' j He Hj. destruct (came_cases d e' Hd He) as [(i & e & E2 & E3 & ->)|(p & o & E2 & E3 & ->)].
    + cbn [swap_source fst snd]. destruct (J1 i e' j E3 Hj) as (x & X1 & X2). rewrite X2, <- X1. apply Gs; assumption.
    + destruct (J2 p e' j E3 Hj) as (x & X1 & X2). rewrite X2, <- X1. destruct (orig_key d p o Hd E2) as (k & q & Ek' & ->). cbn [swap_source fst snd]. pose proof (zget_bounds _ _ _ Ek') as Bk. rewrite (Gp (p / d) p j).
      * apply Gk; assumption.
      * exists (p / d * d), ((p / d + 1) * d). rewrite !Gf by lia. split; [reflexivity|]. split; [reflexivity|]. pose proof (Z.div_mod p d ltac:(lia)) as DM. pose proof (Z.mod_pos_bound p d ltac:(lia)) as MB. clear - DM MB. nia.
      * exact Hj.
Qed.
End found.
