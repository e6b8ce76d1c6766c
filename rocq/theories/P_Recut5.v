(** Swapping edges of a 3D mesh: together. *)
From Coq Require Import String Permutation Sorted.
From Verif Require Import Prelude M_Array P_Array M_Par M_Scan S_Scan P_Scan P_Fan S_Sort M_Sort M_Map S_Map P_Map P_Map2 M_Template S_Template P_Template M_Align S_Align P_Align M_Graph S_Graph P_Graph M_Unique S_Unique P_Unique M_Adj S_Adj P_Adj S_Transit P_Transit S_Across P_Across
  M_Match S_Match P_Match M_Tags M_MeshAdj S_MeshAdj P_MeshAdj P_MeshAdj2 P_MeshAdj3 M_Build S_Build P_Build P_Box S_Unmap P_Unmap P_Mark P_Coarsen P_Mark
  M_Modify S_Modify P_Modify P_Modify2 M_SwapTables M_Swap3d S_Swap3d S_SwapMesh P_SwapTables P_Loop P_SwapVolume P_SwapKey S_Coarsen M_Refine S_Refine P_Refine P_SwapTopo M_RefineMesh S_RefineMesh S_Rebuild P_Rebuild P_Rebuild2 P_Rebuild3 P_RefineMesh1 P_RefineMesh2 P_RefineMesh3 P_RefineMesh4 P_RefineMesh5 P_RefineMesh6 P_RefineMesh7 P_RefineMesh8 S_Patch P_Patch M_Flip P_Flip2 P_Flip3 P_Flip4 S_Recut P_Recut1 P_Recut2 P_Recut3 P_Recut4.
Local Open Scope Z_scope.

Lemma zsum_flat {A} (f : Z -> list A) keys : zsum (map (fun k => zlen (f k)) keys) = zlen (flat_map f keys).
Proof. induction keys as [|k l IH]; [reflexivity|]. cbn [map flat_map]. rewrite zlen_app, <- IH. reflexivity. Qed.
Lemma flat_pos {A} (f : Z -> list A) x : forall keys p, zget (flat_map f keys) p = Ok x -> exists (i : nat) k j, nth_error keys i = Some k /\ zget (f k) j = Ok x /\ p = zsum (firstn i (map (fun k => zlen (f k)) keys)) + j.
Proof.
  induction keys as [|k l IH]; intros p E; [pose proof (zget_bounds _ _ _ E) as B; unfold zlen in B; cbn in B; lia|]. cbn [flat_map] in E. pose proof (zget_bounds _ _ _ E) as B. destruct (Z_lt_dec p (zlen (f k))) as [H|H].
  - rewrite zget_app_l in E by lia. exists 0%nat, k, p. cbn. auto.
  - rewrite zget_app_r in E by lia. destruct (IH _ E) as (i & k' & j & E1 & E2 & E3). exists (S i), k', j. split; [exact E1|]. split; [exact E2|]. cbn [map firstn]. unfold zsum in *. cbn [fold_right]. lia.
Qed.
Lemma flat_group {A} (f : Z -> list A) keys p x : zget (flat_map f keys) p = Ok x -> exists i k, zget keys i = Ok k /\ In x (f k) /\ in_group (offset_scan (map (fun k => zlen (f k)) keys)) i p.
Proof.
  intros E. destruct (flat_pos f x keys p E) as (i & k & j & E1 & E2 & E3). assert (zget keys (Z.of_nat i) = Ok k) as Ek by (apply zget_ok; split; [lia|rewrite Nat2Z.id; exact E1]). exists (Z.of_nat i), k. split; [exact Ek|]. split; [eapply zget_In, E2|].
  assert (zget (map (fun k => zlen (f k)) keys) (Z.of_nat i) = Ok (zlen (f k))) as Em by (rewrite zget_map, Ek; reflexivity). destruct (offset_scan_step _ _ _ Em) as (s & S1 & S2). pose proof (zget_bounds _ _ _ Em) as B. rewrite offset_scan_get in S1 by lia. rewrite Nat2Z.id in S1. injection S1 as S1.
  exists s, (s + zlen (f k)). split; [rewrite offset_scan_get by lia; rewrite Nat2Z.id, S1; reflexivity|]. split; [exact S2|]. pose proof (zget_bounds _ _ _ E2). lia.
Qed.
Lemma F2_eq {A B} (f : A -> B) l m : Forall2 (fun x y => y = f x) l m -> m = map f l.
Proof. induction 1 as [|x y l m -> _ IH]; [reflexivity|]. cbn. f_equal. exact IH. Qed.
Lemma F2_strong {A B} (P Q : A -> B -> Prop) l m : (forall x y, In x l -> P x y -> Q x y) -> Forall2 P l m -> Forall2 Q l m.
Proof. intros H F. induction F as [|x y l m Hp F IH]; constructor; [apply H; [left; reflexivity|exact Hp]|apply IH; intros; apply H; [right|]; assumption]. Qed.

Section found.
Context (T : topology) (HT : valid_topology T) (HS : simplicial T) (old : amesh) (HR : ready T old).
Context (HA : forall a b, 0 <= a <= t_dim T -> 0 <= b <= t_dim T -> a <> b -> P_MeshAdj.val T a b = Ok (kept_adj old a b)).
Context (keys configs : list Z) (HX : recuttable T keys configs).
Context (g : Z -> swap_data) (G : forall k, In k keys -> is_data T configs k (g k)).
Let D3 : t_dim T = 3 := x_dim T keys configs HX.
Let HK : splittable T keys := x_apart T keys configs HX.
Local Notation F := (F g).
Local Notation A := (A g).
Local Notation N := (N g).
Local Notation origs := (origs keys g).
Local Notation L := (L keys g).
Local Notation n0 := (t_nents T 0).
Definition kp (d : Z) : list Z := offset_scan (map (fun k => zlen (ko g k d)) keys).
Lemma ko_len k d : In k keys -> 1 <= d <= 3 -> zlen (ko g k d) = zlen (A k d).
Proof. intros I Hd. pose proof (ro_origs _ _ _ (g_ok T keys configs g G k I) k d Hd) as E. apply (f_equal (@length _)) in E. rewrite !map_length in E. unfold ko, zlen, P_Recut3.A. lia. Qed.
Lemma prods_of k : In k keys -> key_prods (mk_loop (N k) [sd_0 (g k); sd_1 (g k)] (sd_l (g k))) (sd_m (g k)) = Ok (map (map (F k)) (A k 1), map (map (F k)) (A k 2), map (map (F k)) (A k 3)).
Proof.
  intros I. pose proof (g_ok T keys configs g G k I) as RO. unfold key_prods, prod_edges, plane_tris. cbn [loop_size loop_verts2verts eev2v]. unfold N. rewrite (id_E T configs k (g k) (G k I)), (id_T T configs k (g k) (G k I)). cbn [bind].
  rewrite (mapM_lab2 (sd_0 (g k)) (sd_1 (g k)) (sd_l (g k)) _ (ro_En _ _ _ RO)), (mapM_lab2 (sd_0 (g k)) (sd_1 (g k)) (sd_l (g k)) _ (ro_Tn _ _ _ RO)). cbn [bind].
  fold (F k). assert (forall ts, (forall t, In t ts -> exists a b c, t = [a; b; c]) -> mapM (tri_tets [sd_0 (g k); sd_1 (g k)]) (map (map (F k)) ts) = Ok (map (fun t => map (map (F k)) (tri_wedges (N k) t)) ts)) as K.
  { induction ts as [|t ts IH]; intros H; [reflexivity|]. cbn [map mapM]. rewrite IH by (intros; apply H; right; assumption). destruct (H t (or_introl eq_refl)) as (a & b & c & ->). cbn [map tri_wedges]. rewrite F_n, F_n1. reflexivity. }
  rewrite K by (apply (ro_T3 _ _ _ RO)). cbn [bind]. unfold P_Recut3.A, made. cbn [Z.eqb Pos.eqb].
  assert (forall es, flat_map (edge_tris [sd_0 (g k); sd_1 (g k)]) (map (map (F k)) es) = map (map (F k)) (flat_map (edge_tris [N k; N k + 1]) es)) as W1.
  { induction es as [|e es IH]; [reflexivity|]. cbn [map flat_map]. rewrite map_app, IH. f_equal. unfold edge_tris. cbn [map]. rewrite !map_app. cbn [map]. rewrite F_n, F_n1. reflexivity. }
  rewrite map_app, W1, (map_flat (map (F k)) (tri_wedges (N k))), !flat_map_concat_map. reflexivity.
Qed.
(** what the loop over keys gives *)
Lemma recuts_found : exists codes, adj_codes (kept_adj old 1 3) = Some codes /\
  swap3d_keys_to_prods (adj_a2ab (kept_adj old 1 3)) keys = Ok (kp 1, kp 2, kp 3) /\
  swap3d_topology (adj_a2ab (kept_adj old 1 3)) (adj_ab2b (kept_adj old 1 3)) codes (adj_ab2b (kept_adj old 1 0)) (adj_ab2b (kept_adj old 3 0)) keys configs (kp 1, kp 2, kp 3) = Ok (concat (L 1), concat (L 2), concat (L 3)).
Proof.
  destruct (up_ok T HT HS old HA 3 ltac:(lia)) as [[_ (codes & EC & _)] _]. exists codes. split; [exact EC|]. rewrite (old_verts T HT old HA 3), (old_verts T HT old HA 1) by lia.
  assert (forall k, In k keys -> (exists tets, cavity (adj_a2ab (kept_adj old 1 3)) (adj_ab2b (kept_adj old 1 3)) codes (t_verts T 1) (t_verts T 3) k (sd_0 (g k)) (sd_1 (g k)) (sd_l (g k)) tets) /\
    find_loop (adj_a2ab (kept_adj old 1 3)) (adj_ab2b (kept_adj old 1 3)) codes (t_verts T 1) (t_verts T 3) k = Ok (mk_loop (N k) [sd_0 (g k); sd_1 (g k)] (sd_l (g k)))) as K by (intros k I; apply (ring_found T HT HS D3 old HA k _ _ _ codes (id_ring T configs k (g k) (G k I)) EC)).
  destruct (topo_spec (adj_a2ab (kept_adj old 1 3)) (adj_ab2b (kept_adj old 1 3)) codes (t_verts T 1) (t_verts T 3) keys configs) as (k2e & k2f & k2r & oe & of & or & PR & T1 & T2 & T3 & (-> & -> & ->) & (-> & -> & ->) & _).
  - destruct (edge_ups T HT HS old HA 3 ltac:(lia)) as (ab & dcodes & E & W & Ln & _). rewrite Ln. pose proof (v_nents T HT 1 ltac:(lia)). lia.
  - intros k I. destruct (K k I) as [(tets & C) _]. destruct (id_cut T configs k (g k) (G k I)) as (_ & m & Em & (count & Ec & Hm) & _). do 6 eexists. split; [exact C|]. eauto.
  - assert (PR = map (fun k => (map (map (F k)) (A k 1), map (map (F k)) (A k 2), map (map (F k)) (A k 3))) keys) as E.
    { apply F2_eq. eapply F2_strong; [|exact T3]. intros k p I (_ & config & loop & E1 & E2 & E3). destruct (K k I) as [_ E2']. rewrite E2' in E2. injection E2 as <-. rewrite (id_m T configs k (g k) (G k I)) in E1. injection E1 as <-. rewrite (prods_of k I) in E3. injection E3 as <-. reflexivity. }
    subst PR. rewrite !map_map in T1, T2. cbn [fst snd] in T1, T2.
    assert (forall d, 1 <= d <= 3 -> offset_scan (map (fun k => zlen (map (map (F k)) (A k d))) keys) = kp d) as KP. { intros d Hd. unfold kp. f_equal. apply map_ext_in. intros k I. rewrite zlen_map, (ko_len k d I Hd). reflexivity. }
    rewrite !KP in T1, T2 by lia. split; [exact T1|]. rewrite T2. rewrite !map_map. cbn [fst snd]. unfold P_Recut4.L. rewrite !flat_map_concat_map. reflexivity.
Qed.
Lemma origs_count d : zsum (map (fun k => zlen (ko g k d)) keys) = zlen (origs d).
Proof. apply zsum_flat. Qed.
Lemma kp_facts d : is_fan (kp d) /\ zlen (kp d) = zlen keys + 1 /\ last_of (kp d) = Ok (zlen (origs d)).
Proof.
  unfold kp. split; [apply offset_scan_fan; intros x Hx; apply in_map_iff in Hx as (k & <- & _); apply zlen_nonneg|]. split; [rewrite offset_scan_length, zlen_map; reflexivity|]. rewrite offset_scan_last, origs_count. reflexivity.
Qed.
(** the numberings *)
Lemma recuts_numbered : exists r, r 0 = same_numbers n0 /\ forall d, 1 <= d <= 3 -> modify_ents_adapt (view old) d 1 keys (kp d) = Ok (r d) /\
  good_numbering (view old) d (only_at 1 keys) (only_at 1 (kp d)) (zlen (origs d)) (fun x => ~ exists k, In k keys /\ has_edge T d x k) (r d).
Proof.
  assert (forall d, 1 <= d <= 3 -> exists r, modify_ents_adapt (view old) d 1 keys (kp d) = Ok r /\ good_numbering (view old) d (only_at 1 keys) (only_at 1 (kp d)) (zlen (origs d)) (fun x => ~ exists k, In k keys /\ has_edge T d x k) r) as K.
  { intros d Hd. destruct (kp_facts d) as (F1 & L1 & E1). apply (numbered T HT HS old HR HA keys HK d (kp d) (zlen (origs d)) ltac:(lia) F1 L1 E1). }
  destruct (K 1 ltac:(lia)) as (r1 & H1). destruct (K 2 ltac:(lia)) as (r2 & H2). destruct (K 3 ltac:(lia)) as (r3 & H3).
  exists (fun d => if d =? 0 then same_numbers n0 else if d =? 1 then r1 else if d =? 2 then r2 else r3). split; [reflexivity|]. intros d Hd. assert (d = 1 \/ d = 2 \/ d = 3) as [->|[->| ->]] by lia; cbn; assumption.
Qed.
Context (r : Z -> numbering).
Context (R0 : r 0 = same_numbers n0).
Context (RG : forall d, 1 <= d <= 3 -> good_numbering (view old) d (only_at 1 keys) (only_at 1 (kp d)) (zlen (origs d)) (fun x => ~ exists k, In k keys /\ has_edge T d x k) (r d)).
Lemma n0_ok : 0 <= n0. Proof. apply (v_nents T HT 0). lia. Qed.
Lemma q_rn d : 0 <= d <= 3 -> renumbers (t_nents T d) (r d).
Proof.
  intros Hd. destruct (Z.eq_dec d 0) as [->|]; [rewrite R0; apply same_renumbers, n0_ok|]. destruct (RG d ltac:(lia)) as (_ & _ & G3 & _ & G5 & _ & G7 & G8 & _). constructor; [exact G3|exact G5| |exact G8]. rewrite G7. cbn. apply (old_nents T old HR). lia.
Qed.
Lemma q_ko d x : 0 <= d <= 3 -> In x (same2old (r d)) <-> 0 <= x < t_nents T d /\ P_Recut3.no_key T keys d x.
Proof.
  intros Hd. destruct (Z.eq_dec d 0) as [->|].
  - rewrite R0. cbn [same2old same_numbers]. rewrite in_zrange. split; [|tauto]. intros H. split; [exact H|]. intros k _. apply (has_0 T HT HS).
  - destruct (RG d ltac:(lia)) as (G1 & _). rewrite G1. cbn. rewrite (old_nents T old HR) by lia. split; intros [X Y]; (split; [exact X|]); [intros k I H; apply Y; eauto|intros (k & I & H); apply (Y k I H)].
Qed.
Lemma q_kn d : 0 <= d <= 3 -> NoDup (same2old (r d)).
Proof. intros Hd. destruct (Z.eq_dec d 0) as [->|]; [rewrite R0; apply zrange_NoDup|]. destruct (RG d ltac:(lia)) as (_ & G2 & _). apply strict_nodup, G2. Qed.
Lemma q_po d : 0 <= d <= 3 -> zlen (prods2new (r d)) = zlen (origs d).
Proof. intros Hd. destruct (Z.eq_dec d 0) as [->|]; [rewrite R0, origs_0 by lia; reflexivity|]. destruct (RG d ltac:(lia)) as (_ & _ & _ & G4 & _). exact G4. Qed.
Lemma q_nn d : 0 <= d <= 3 -> 0 <= nnew (r d).
Proof. intros Hd. destruct (Z.eq_dec d 0) as [->|]; [rewrite R0; apply n0_ok|]. destruct (RG d ltac:(lia)) as (_ & _ & _ & _ & _ & _ & _ & _ & _ & _ & _ & G12). rewrite G12. pose proof (zlen_nonneg (same2old (r d))). pose proof (zlen_nonneg (origs d)). lia. Qed.
Lemma q_fits : fits T r (PVL L).
Proof. exact (re_fits T HT HS keys configs HX g G r R0 q_rn q_ko q_kn q_po). Qed.
Definition came (d e' : Z) : recut_origin := patch_from r Stands origs d e'.
Lemma q_new T' : rebuilt T r (PVL L) T' -> simplicial T' /\ assembled T (recut_makes T keys configs) (recut_verts T configs) came T'.
Proof.
  intros RB. split.
  - refine (patch_simplicial T HT HS r L _ _ _ _ _ _ _ _ _ T' RB).
    + exact (h_rn T keys configs HX g G r q_rn q_ko q_kn q_po).
    + exact (re_picks T HT HS keys configs HX g G r q_rn q_ko q_kn q_po).
    + exact (h_len T keys configs HX g G r q_rn q_ko q_kn q_po).
    + exact (h_rows T HT HS keys configs HX g G r R0 q_rn q_ko q_kn q_po).
    + exact (h_once T HT HS keys configs HX g G r q_rn q_ko q_kn q_po).
    + exact (h_new T HT HS keys configs HX g G r R0 q_rn q_ko q_kn q_po).
    + exact (h_sides T HT HS keys configs HX g G r R0 q_rn q_ko q_kn q_po).
    + exact (h_up T keys configs HX g G r q_rn q_ko q_kn q_po).
    + exact (h_kept_up T HT HS keys configs HX g G r R0 q_rn q_ko q_kn q_po).
  - refine (patch_assembled T HT HS r L (h_rn T keys configs HX g G r q_rn q_ko q_kn q_po) (re_picks T HT HS keys configs HX g G r q_rn q_ko q_kn q_po) (h_n0 T r R0) (h_len T keys configs HX g G r q_rn q_ko q_kn q_po) (h_rows T HT HS keys configs HX g G r R0 q_rn q_ko q_kn q_po) (h_once T HT HS keys configs HX g G r q_rn q_ko q_kn q_po)
      (h_new T HT HS keys configs HX g G r R0 q_rn q_ko q_kn q_po) (h_sides T HT HS keys configs HX g G r R0 q_rn q_ko q_kn q_po) (h_up T keys configs HX g G r q_rn q_ko q_kn q_po) (h_kept_up T HT HS keys configs HX g G r R0 q_rn q_ko q_kn q_po) T' RB Stands _ origs _ _ _ (recut_makes T keys configs) (recut_verts T configs) _ _ _).
    + intros e e' E. injection E. auto.
    + intros d _. apply (origs_nodup T keys configs HX g G).
    + intros d e _ I. apply (origs_in T keys configs g G) in I as [_ NS]. apply (NS e). reflexivity.
    + intros d Hd. symmetry. apply q_po. lia.
    + intros d o Hd. rewrite (origs_in T keys configs g G). split.
      * intros M. destruct o as [e| | | | ]; [left; exists e; split; [reflexivity|]; apply q_ko; [lia|exact M]| | | |]; right; (split; [exact M|discriminate]).
      * intros [(e & -> & I)|[M _]]; [|exact M]. apply q_ko in I; [exact I|lia].
    + intros d e row Hd [_ R]. rewrite (nv_id T HT HS keys configs HX g G r R0 q_rn q_ko q_kn q_po d e row ltac:(lia) R). exact R.
    + intros d p o row Hd Eo Er. exact (Forall2_at _ _ _ (verts_all T keys configs g G d ltac:(lia)) p o row Eo Er).
Qed.
Lemma came_cases d e' : 1 <= d <= 3 -> 0 <= e' < nnew (r d) -> (exists i e, zget (same2old (r d)) i = Ok e /\ zget (same2new (r d)) i = Ok e' /\ came d e' = Stands e) \/ (exists p o, zget (origs d) p = Ok o /\ zget (prods2new (r d)) p = Ok e' /\ came d e' = o).
Proof.
  intros Hd He. refine (patch_who T r L (h_rn T keys configs HX g G r q_rn q_ko q_kn q_po) (h_len T keys configs HX g G r q_rn q_ko q_kn q_po) (h_rows T HT HS keys configs HX g G r R0 q_rn q_ko q_kn q_po) (h_once T HT HS keys configs HX g G r q_rn q_ko q_kn q_po)
      (h_new T HT HS keys configs HX g G r R0 q_rn q_ko q_kn q_po) (h_sides T HT HS keys configs HX g G r R0 q_rn q_ko q_kn q_po) (h_up T keys configs HX g G r q_rn q_ko q_kn q_po) (h_kept_up T HT HS keys configs HX g G r R0 q_rn q_ko q_kn q_po) Stands _ origs _ _ _ d e' ltac:(lia) He).
  - intros e1 e2 E. injection E. auto.
  - intros d0 _. apply (origs_nodup T keys configs HX g G).
  - intros d0 e _ I. apply (origs_in T keys configs g G) in I as [_ NS]. apply (NS e). reflexivity.
  - intros d0 H0. symmetry. apply q_po. lia.
Qed.
(** values of tags *)
Lemma source_key d k o : In k keys -> In o (ko g k d) -> recut_source d o = (1, k).
Proof. intros I H. apply (ko_in T keys configs g G k d o I) in H as (E & _ & NS). destruct o as [e| | | | ]; [exfalso; apply (NS e); reflexivity| | | |]; cbn in *; rewrite E; reflexivity. Qed.
Lemma values_right {X} ncomps (data : Z -> list X) d : 1 <= d <= 3 -> 0 <= ncomps -> (forall d, 0 <= d <= 3 -> zlen (data d) = t_nents T d * ncomps) ->
  exists l, inherit_swap keys ncomps data d (kp d) (r d) = Ok l /\ takes_from (nnew (r d)) ncomps data (fun e' => recut_source d (came d e')) l.
Proof.
  intros Hd Hc Hdata. unfold inherit_swap.
  destruct (unmap_spec keys (data 1) ncomps Hc) as (kl & Ek & Lk & Gk). { intros b Hb. pose proof (k_edges T keys HK b Hb) as B. rewrite (Hdata 1) by lia. clear - B Hc. split; [lia|nia]. }
  rewrite Ek. cbn [bind]. pose proof (zlen_nonneg keys) as Hn. destruct (kp_facts d) as (Fa & Lf & Ef).
  destruct (expand_spec kl (kp d) ncomps Fa Hc ltac:(rewrite Lf, Lk; clear; lia)) as (n & pl & En & Ep & Lp & Gp). assert (n = zlen (origs d)) as -> by congruence. rewrite Ep. cbn [bind].
  assert (forall x, In x (same2old (r d)) -> 0 <= x < t_nents T d) as B by (intros x Hx; apply q_ko in Hx; [tauto|lia]).
  destruct (unmap_spec (same2old (r d)) (data d) ncomps Hc) as (sl & Es & Ls & Gs). { intros b Hb. apply B in Hb. rewrite (Hdata d) by (clear - Hd; lia). clear - Hb Hc. split; [lia|nia]. }
  assert (zlen (prods2new (r d)) = zlen (origs d)) as Np by (apply q_po; clear - Hd; lia).
  assert (renumbers (t_nents T d) (r d)) as RN by (apply q_rn; lia). assert (0 <= nnew (r d)) as NN by (apply q_nn; lia).
  destruct (join_spec ncomps (t_nents T d) (r d) true pl sl RN NN Hc ltac:(rewrite Np; exact Lp) Ls) as (l & Ej & Ll & J1 & J2). unfold join in Ej. rewrite (total_eq _ _ RN NN) in Ej. exists l. split.
  - apply bind_ok in Ej as (v0 & F0 & Ej). rewrite F0. cbn [bind]. apply bind_ok in Ej as (v2 & F2 & Ej). apply bind_ok in F2 as (v1 & F1 & F2). rewrite F1. cbn [bind]. rewrite Es. cbn [bind]. rewrite F2. cbn [bind]. exact Ej.
  - split; [exact Ll|]. intros e' j He Hj. destruct (came_cases d e' Hd He) as [(i & e & E2 & E3 & ->)|(p & o & E2 & E3 & ->)].
    + cbn [recut_source fst snd]. destruct (J1 i e' j E3 Hj) as (x & X1 & X2). rewrite X2, <- X1. apply Gs; assumption.
    + destruct (J2 p e' j E3 Hj) as (x & X1 & X2). rewrite X2, <- X1. destruct (flat_group (fun k => ko g k d) keys p o E2) as (i & k & Eik & Io & GR). rewrite (source_key d k o (zget_In _ _ _ Eik) Io). cbn [fst snd]. rewrite (Gp i p j GR Hj). apply Gk; assumption.
Qed.
End found.
