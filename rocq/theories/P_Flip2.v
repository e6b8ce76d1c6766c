(** Swapping edges of a 2D mesh: the new mesh fits together. *)
From Coq Require Import String Permutation Sorted.
From Verif Require Import Prelude M_Array P_Array M_Par M_Scan S_Scan P_Scan P_Fan S_Sort M_Sort M_Map S_Map P_Map P_Map2 M_Template S_Template P_Template M_Align S_Align P_Align M_Graph S_Graph P_Graph M_Unique S_Unique P_Unique M_Adj S_Adj P_Adj S_Transit P_Transit S_Across P_Across
  M_Match S_Match P_Match M_Tags M_MeshAdj S_MeshAdj P_MeshAdj P_MeshAdj2 P_MeshAdj3 M_Build S_Build P_Build P_Box S_Unmap P_Unmap P_Mark P_Coarsen P_Mark
  M_Modify S_Modify P_Modify P_Modify2 S_Swap3d M_Swap2d S_Swap2d P_Swap2d S_Coarsen M_Refine S_Refine P_Refine P_SwapTopo M_RefineMesh S_RefineMesh S_Rebuild P_Rebuild P_RefineMesh1 P_RefineMesh2 P_RefineMesh3 P_RefineMesh4 P_RefineMesh5 S_Patch P_Patch M_Flip S_Flip P_Flip1.
Local Open Scope Z_scope.

(** entities without a key edge *)
Section edge_keys.
Context (T : topology) (HT : valid_topology T) (HS : simplicial T) (keys : list Z) (maps : Z -> list Z).
Local Notation D := (t_dim T).
Local Notation F := (t_family T).
Context (MN : forall d, 0 <= d <= D -> NoDup (maps d)) (MI : forall d x, 0 <= d <= D -> In x (maps d) <-> 0 <= x < t_nents T d /\ forall k, In k keys -> ~ has_edge T d x k).
Lemma keyless_picks : S_Unmap.picks T maps.
Proof.
  pose proof (v_dim T HT) as HD. split; [intros d Hd; split; [apply MN, Hd|]; intros e I; apply (MI d) in I; tauto|]. intros d e w s Hd I Hw Es. apply MI in I as [He NK]; [|lia]. destruct (Z.eq_dec d 1) as [->|].
  - change (1 - 1) with 0 in *. apply MI; [lia|]. split; [|intros k _; apply (has_0 T HT HS)]. rewrite (v_edges T HT) in Es. cbn [adj_ab2b] in Es. destruct (v_verts T HT 1 ltac:(lia)) as (_ & _ & B0). apply B0. eapply zget_In, Es.
  - destruct (v_down T HT d ltac:(lia)) as (ab & codes & E & L1 & L2 & RF). rewrite E in Es. cbn [adj_ab2b] in Es. destruct (ent_row T HT HS d e ltac:(lia) He) as (row & R). pose proof (proj1 (ent_high T d e row ltac:(lia)) R) as R'. rewrite <- (deg0 T HS d) in R' by lia.
    destruct (side_exists F d (d - 1) (t_verts T d) e w row ltac:(lia) ltac:(lia) R' Hw) as (srow & SD). pose proof SD as (hr & Rh & _ & F2). assert (hr = row) as -> by (apply (row_is_unique _ _ _ _ _ Rh R')). destruct (RF e w srow SD) as (l & code & lrow & El & _ & Rl & Al & _). assert (l = s) as -> by congruence. rewrite (deg0 T HS (d - 1)) in Rl, Al by lia.
    assert (ent_verts T (d - 1) s lrow) as Rs by (apply ent_high; [lia|exact Rl]). apply MI; [lia|]. split; [apply (ent_range T HT HS (d - 1) s lrow ltac:(lia) Rs)|]. intros k Ik H. apply (NK k Ik). destruct H as (row1 & a & b & R1 & Rk & Ia & Ib). assert (row1 = lrow) as -> by (apply (ent_unique T (d - 1) s); [lia|assumption|assumption]).
    exists row, a, b. split; [exact R|]. split; [exact Rk|]. pose proof (polygon_perm _ _ (polygon_spec (d - 1 + 1) code lrow srow ltac:(lia) (proj1 Rl) Al)) as P. split; match goal with |- In ?x _ => destruct (zget_list_in row _ _ x F2) as (v & _ & Ev); [apply (Permutation_in _ P); assumption|eapply zget_In, Ev] end.
Qed.
End edge_keys.

Lemma perm3 (q x y : Z) l : Permutation l [q; x; y] -> forall z, In z l <-> z = q \/ z = x \/ z = y.
Proof. intros P z. split; intros H; [apply (Permutation_in _ P) in H; cbn in H; intuition congruence|]. apply (Permutation_in _ (Permutation_sym P)). cbn. intuition congruence. Qed.

Section flips.
Context (T : topology) (HT : valid_topology T) (HS : simplicial T) (keys : list Z) (HW : swappable T keys).
Let D2 : t_dim T = 2 := w_dim T keys HW.
Let HK : splittable T keys := w_apart T keys HW.
Definition no_key (d e : Z) : Prop := forall k, In k keys -> ~ has_edge T d e k.
(** an edge of a triangle with another key edge is no key *)
Lemma other_edge t tv k s srow : In k keys -> ent_verts T 2 t tv -> has_edge T 2 t k -> ent_verts T 1 s srow -> incl srow tv -> s <> k -> no_key 1 s.
Proof.
  intros Ik Rt Hk Rs Inc N k' Ik' H. apply (has_1 T HT HS) in H as [-> _]. apply N. apply (one_key T HT HS keys HK 2 t k' k ltac:(lia) Ik' Ik); [|exact Hk]. destruct (edge_row T HT HS k' srow Rs) as (p & q & -> & _). exists tv, p, q. split; [exact Rt|]. split; [exact Rs|]. split; apply Inc; cbn; tauto.
Qed.
(** the four edges around a key stay *)
Lemma around k a b x y t u q z : In k keys -> diamond T k a b x y t u -> q = a \/ q = b -> z = x \/ z = y -> exists s srow, ent_verts T 1 s srow /\ Permutation srow [q; z] /\ no_key 1 s.
Proof.
  intros Ik H Hq Hz. pose proof (dia_has T HT HS D2 _ _ _ _ _ _ _ H) as [Ht Hu]. pose proof (dia_nodup T HT HS D2 _ _ _ _ _ _ _ H) as N4. destruct H as (Rk & H1 & H2 & _).
  assert (exists e tv, ent_verts T 2 e tv /\ has_edge T 2 e k /\ Permutation tv [a; b; z]) as (e & tv & Re & He & P).
  { destruct Hz as [->| ->].
    - destruct (tri_row T HT HS D2 t _ H1) as (tv & R & S & _). exists t, tv. split; [exact R|]. split; [exact Ht|]. apply turn_perm, S.
    - destruct (tri_row T HT HS D2 u _ H2) as (tv & R & S & _). exists u, tv. split; [exact R|]. split; [exact Hu|]. apply (Permutation_trans (turn_perm _ _ _ _ S)), perm_swap. }
  assert (NoDup [q; z]) as Nq. { inversion N4 as [|? ? A1 B1]; subst. inversion B1 as [|? ? A2 B2]; subst. cbn [In] in *. repeat constructor; cbn [In]; intuition congruence. }
  destruct (part T HT HS 2 e tv [q; z] ltac:(lia) Re Nq) as (s & srow & Rs & Ps); [|discriminate|].
  { intros v Hv. apply (Permutation_in _ (Permutation_sym P)). cbn in *. intuition congruence. }
  change (zlen [q; z] - 1) with 1 in Rs. exists s, srow. split; [exact Rs|]. split; [exact Ps|]. apply (other_edge e tv k s srow Ik Re He Rs).
  - intros v Hv. apply (Permutation_in _ Ps) in Hv. apply (Permutation_in _ (Permutation_sym P)). cbn in *. intuition congruence.
  - intros ->. pose proof (ent_unique T 1 k _ _ ltac:(lia) Rk Rs) as <-. assert (In z [a; b]) as Iz by (apply (Permutation_in _ (Permutation_sym Ps)); cbn; tauto). inversion N4 as [|? ? A1 B1]; subst. inversion B1 as [|? ? A2 B2]; subst. cbn [In] in *. intuition congruence.
Qed.

Lemma no_edge k a b x y t u e row : In k keys -> diamond T k a b x y t u -> ent_verts T 1 e row -> Permutation row [x; y] -> ~ no_key 1 e.
Proof. intros Ik H R P N. pose proof (w_new T keys HW k a b x y t u e row Ik H R P) as I. apply (N e I). apply (has_1 T HT HS). split; [reflexivity|]. apply (ent_range T HT HS 1 e row ltac:(lia) R). Qed.
(** a triangle that stays has no two opposite corners *)
Lemma no_triangle k a b x y t u e row : In k keys -> diamond T k a b x y t u -> ent_verts T 2 e row -> In x row -> In y row -> ~ no_key 2 e.
Proof.
  intros Ik H R Ix Iy N. pose proof (dia_apart T HT HS D2 _ _ _ _ _ _ _ H) as [_ Hxy]. destruct (part T HT HS 2 e row [x; y] ltac:(lia) R) as (s & srow & Rs & Ps); [repeat constructor; cbn; intuition congruence|intros v [<-|[<-|[]]]; assumption|discriminate|]. change (zlen [x; y] - 1) with 1 in Rs.
  pose proof (w_new T keys HW k a b x y t u s srow Ik H Rs Ps) as Is. apply (N s Is). destruct (edge_row T HT HS s srow Rs) as (p & q & -> & _). exists row, p, q. split; [exact R|]. split; [exact Rs|]. split; [assert (In p [x; y]) as J by (apply (Permutation_in _ Ps); cbn; tauto)|assert (In q [x; y]) as J by (apply (Permutation_in _ Ps); cbn; tauto)]; destruct J as [<-|[<-|[]]]; assumption.
Qed.
(** different triangles made by swaps have different vertices *)
Lemma tri_rows k a b x y t u k' a' b' x' y' t' u' q q' : In k keys -> In k' keys -> diamond T k a b x y t u -> diamond T k' a' b' x' y' t' u' -> q = a \/ q = b -> (forall z, z = q' \/ z = x' \/ z = y' -> z = q \/ z = x \/ z = y) -> k = k'.
Proof.
  intros Ik Ik' H H' Hq HI. pose proof (dia_apart T HT HS D2 _ _ _ _ _ _ _ H) as [_ Hxy]. pose proof (dia_apart T HT HS D2 _ _ _ _ _ _ _ H') as [_ Hxy'].
  assert (forall z, z = x \/ z = y -> ~ Permutation [q; z] [x'; y']) as K.
  { intros z Hz P. destruct (around k a b x y t u q z Ik H Hq Hz) as (s & srow & Rs & Ps & Ns). apply (no_edge k' a' b' x' y' t' u' s srow Ik' H' Rs); [apply (Permutation_trans Ps), P|exact Ns]. }
  assert (forall m n : Z, Permutation [m; n] [n; m]) as SW by (intros; apply perm_swap).
  assert (x' = q \/ x' = x \/ x' = y) as Hx by (apply HI; tauto). assert (y' = q \/ y' = x \/ y' = y) as Hy by (apply HI; tauto).
  destruct Hx as [Hx|Hx], Hy as [Hy|Hy]; [congruence|exfalso; apply (K y' Hy); rewrite Hx; apply Permutation_refl|exfalso; apply (K x' Hx); rewrite Hy; apply SW|].
  apply (w_once T keys HW k a b x y t u k' a' b' x' y' t' u' Ik Ik' H H'). destruct Hx as [->| ->], Hy as [->| ->]; try congruence; [apply Permutation_refl|apply SW].
Qed.

(** what the keys make *)
Definition flip_origs (d : Z) : list swap_origin := if d =? 1 then map (fun k => Swapped k 0) keys else if d =? 2 then flat_map (fun k => [Swapped k 0; Swapped k 1]) keys else [].
Lemma flip_origs_in d o : In o (flip_origs d) <-> swap_makes T keys d o /\ forall e, o <> Stays e.
Proof.
  unfold flip_origs. destruct (Z.eqb_spec d 1) as [->|]; [|destruct (Z.eqb_spec d 2) as [->|]].
  - rewrite in_map_iff. split; [intros (k & <- & I); split; [split; [exact I|auto]|discriminate]|]. intros [M N]. destruct o as [e|k p]; [exfalso; apply (N e); reflexivity|]. destruct M as [I [[_ ->]|[E _]]]; [eauto|lia].
  - rewrite in_flat_map. split.
    + intros (k & I & [<-|[<-|[]]]); (split; [split; [exact I|auto]|discriminate]).
    + intros [M N]. destruct o as [e|k p]; [exfalso; apply (N e); reflexivity|]. destruct M as [I [[E _]|[_ [->| ->]]]]; [lia| |]; exists k; cbn; auto.
  - split; [intros []|]. intros [M N]. destruct o as [e|k p]; [exfalso; apply (N e); reflexivity|]. destruct M as [I [[E _]|[E _]]]; lia.
Qed.
Lemma flip_origs_nodup d : NoDup (flip_origs d).
Proof.
  pose proof (k_once T keys HK) as N. unfold flip_origs. destruct (Z.eqb_spec d 1); [|destruct (Z.eqb_spec d 2); [|constructor]].
  - apply FinFun.Injective_map_NoDup; [|exact N]. intros x y E. injection E. auto.
  - apply (NoDup_tagged (fun o => match o with Stays e => e | Swapped k _ => k end)); [exact N| |].
    + intros k _. repeat constructor; cbn; intuition discriminate.
    + intros k o _ [<-|[<-|[]]]; reflexivity.
Qed.
Lemma flip_once d o o' row row' : 1 <= d <= 2 -> In o (flip_origs d) -> In o' (flip_origs d) -> swap_verts T d o row -> swap_verts T d o' row' -> Permutation row row' -> o = o'.
Proof.
  intros Hd I I' V V' P. apply flip_origs_in in I as [M N]. apply flip_origs_in in I' as [M' N']. destruct o as [e|k p]; [exfalso; apply (N e); reflexivity|]. destruct o' as [e|k' p']; [exfalso; apply (N' e); reflexivity|].
  destruct V as (a & b & x & y & t & u & H & E). destruct V' as (a' & b' & x' & y' & t' & u' & H' & E'). destruct M as [Ik Hp]. destruct M' as [Ik' Hp']. destruct (Z.eqb_spec d 1) as [->|].
  - subst row row'. rewrite (w_once T keys HW k a b x y t u k' a' b' x' y' t' u' Ik Ik' H H' P). f_equal. lia.
  - assert (d = 2) as -> by lia. assert (exists q, (q = a \/ q = b) /\ Permutation row [q; x; y] /\ (p = 0 -> q = b) /\ (p <> 0 -> q = a)) as (q & Hq & Pq & Q0 & Q1).
    { destruct (Z.eqb_spec p 0); subst row; [exists b|exists a]; (split; [auto|]); (split; [|split; auto; congruence]); [apply Permutation_refl|]. apply perm_skip, perm_swap. }
    assert (exists q, (q = a' \/ q = b') /\ Permutation row' [q; x'; y'] /\ (p' = 0 -> q = b') /\ (p' <> 0 -> q = a')) as (q' & Hq' & Pq' & Q0' & Q1').
    { destruct (Z.eqb_spec p' 0); subst row'; [exists b'|exists a']; (split; [auto|]); (split; [|split; auto; congruence]); [apply Permutation_refl|]. apply perm_skip, perm_swap. }
    assert (Permutation [q; x; y] [q'; x'; y']) as PP by (apply (Permutation_trans (Permutation_sym Pq)), (Permutation_trans P), Pq').
    assert (k = k') as <-. { apply (tri_rows k a b x y t u k' a' b' x' y' t' u' q q' Ik Ik' H H' Hq). intros z Hz. pose proof (proj2 (perm3 q' x' y' [q; x; y] PP z) Hz) as J. cbn in J. intuition congruence. }
    destruct (dia_unique T HT HS D2 _ _ _ _ _ _ _ _ _ _ _ _ _ H H') as (<- & <- & <- & <- & _). f_equal. pose proof (dia_nodup T HT HS D2 _ _ _ _ _ _ _ H) as N4.
    assert (In q [q'; x; y]) as J by (apply (Permutation_in _ PP); cbn; tauto). inversion N4 as [|? ? A1 B1]; subst. inversion B1 as [|? ? A2 B2]; subst. clear - Q0 Q1 Q0' Q1' J A1 A2 Hp Hp' Hq. cbn [In] in *.
    destruct (Z.eq_dec p 0) as [->|Np], (Z.eq_dec p' 0) as [->|Np']; [reflexivity| | |lia].
    + specialize (Q0 eq_refl). specialize (Q1' Np'). subst q q'. exfalso. intuition congruence.
    + specialize (Q0' eq_refl). specialize (Q1 Np). subst q q'. exfalso. intuition congruence.
Qed.
Lemma flip_row d o row : 1 <= d <= 2 -> In o (flip_origs d) -> swap_verts T d o row -> zlen row = d + 1 /\ NoDup row /\ forall v, In v row -> 0 <= v < t_nents T 0.
Proof.
  intros Hd I V. apply flip_origs_in in I as [M N]. destruct o as [e|k p]; [exfalso; apply (N e); reflexivity|]. destruct V as (a & b & x & y & t & u & H & E). destruct M as [Ik Hp].
  pose proof (dia_nodup T HT HS D2 _ _ _ _ _ _ _ H) as N4. assert (forall v, In v [a; b; x; y] -> 0 <= v < t_nents T 0) as RG.
  { destruct H as (_ & H1 & H2 & _). destruct (tri_row T HT HS D2 t _ H1) as (tv & R1 & S1 & _). destruct (tri_row T HT HS D2 u _ H2) as (uv & R2 & S2 & _). intros v Hv. destruct (ent_facts T HT HS 2 t tv ltac:(lia) R1) as (_ & _ & B1). destruct (ent_facts T HT HS 2 u uv ltac:(lia) R2) as (_ & _ & B2). apply turn_perm in S1, S2.
    assert (In v [a; b; x] \/ In v [b; a; y]) as [J|J] by (cbn in *; tauto); [apply B1, (Permutation_in _ (Permutation_sym S1)), J|apply B2, (Permutation_in _ (Permutation_sym S2)), J]. }
  inversion N4 as [|? ? A1 B1]; subst. inversion B1 as [|? ? A2 B2]; subst. inversion B2 as [|? ? A3 _]; subst. cbn [In] in *. destruct (Z.eqb_spec d 1) as [->|]; [|assert (d = 2) as -> by lia; destruct (p =? 0)]; (split; [reflexivity|]); (split; [repeat constructor; cbn [In]; intuition congruence|]); intros v Hv; apply RG; cbn [In] in *; tauto.
Qed.
End flips.
