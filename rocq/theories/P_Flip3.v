(** Swapping edges of a 2D mesh: the whole. *)
From Coq Require Import String Permutation Sorted.
From Verif Require Import Prelude M_Array P_Array M_Par M_Scan S_Scan P_Scan P_Fan S_Sort M_Sort M_Map S_Map P_Map P_Map2 M_Template S_Template P_Template M_Align S_Align P_Align M_Graph S_Graph P_Graph M_Unique S_Unique P_Unique M_Adj S_Adj P_Adj S_Transit P_Transit S_Across P_Across
  M_Match S_Match P_Match M_Tags M_MeshAdj S_MeshAdj P_MeshAdj P_MeshAdj2 P_MeshAdj3 M_Build S_Build P_Build P_Box S_Unmap P_Unmap P_Mark P_Coarsen P_Mark
  M_Modify S_Modify P_Modify P_Modify2 S_Swap3d M_Swap2d S_Swap2d P_Swap2d S_Coarsen M_Refine S_Refine P_Refine P_SwapTopo M_RefineMesh S_RefineMesh S_Rebuild P_Rebuild P_Rebuild2 P_Rebuild3 P_RefineMesh1 P_RefineMesh2 P_RefineMesh3 P_RefineMesh4 P_RefineMesh5 P_RefineMesh6 P_RefineMesh7 P_RefineMesh8 S_Patch P_Patch M_Flip S_Flip P_Flip1 P_Flip2.
Local Open Scope Z_scope.

Lemma rm_two (x y : Z) : x <> y -> rm x [x; y] = [y] /\ rm y [x; y] = [x].
Proof. intros N. unfold rm. cbn. rewrite !Z.eqb_refl. cbn. destruct (Z.eqb_spec y x), (Z.eqb_spec x y); try congruence. auto. Qed.
Lemma rm_third q x y z l : Permutation l [q; x; y] -> NoDup [q; x; y] -> In z l -> exists m n, Permutation (rm z l) [m; n] /\ (z = q /\ m = x /\ n = y \/ z <> q /\ m = q /\ (n = x \/ n = y)).
Proof.
  intros P N I. pose proof (rm_perm' z _ _ P) as Q. apply (Permutation_in _ P) in I. inversion N as [|? ? A1 B1]; subst. inversion B1 as [|? ? A2 _]; subst. cbn [In] in *. unfold rm in Q at 2. cbn [filter] in Q. destruct I as [<-|[<-|[<-|[]]]].
  - rewrite Z.eqb_refl in Q. destruct (Z.eqb_spec x q), (Z.eqb_spec y q); cbn [negb] in Q; try (exfalso; intuition congruence). exists x, y. split; [exact Q|auto].
  - rewrite Z.eqb_refl in Q. destruct (Z.eqb_spec q x), (Z.eqb_spec y x); cbn [negb] in Q; try (exfalso; intuition congruence). exists q, y. split; [exact Q|auto].
  - rewrite Z.eqb_refl in Q. destruct (Z.eqb_spec q y), (Z.eqb_spec x y); cbn [negb] in Q; try (exfalso; intuition congruence). exists q, x. split; [exact Q|auto].
Qed.
Lemma look_range n x : 0 <= x < n -> look (zrange n) x = x.
Proof. intros H. unfold look. rewrite zget_zrange by exact H. reflexivity. Qed.
Lemma look_rows n l : (forall v, In v l -> 0 <= v < n) -> map (look (zrange n)) l = l.
Proof. induction l as [|x l IH]; intros H; [reflexivity|]. cbn [map]. rewrite look_range, IH by (intros; apply H; cbn; auto). reflexivity. Qed.
Definition same_numbers (n : Z) : numbering := mk_numbering (zrange n) (zrange n) [] (zrange n) n.
Lemma same_renumbers n : 0 <= n -> renumbers n (same_numbers n).
Proof.
  intros Hn. constructor; cbn; [reflexivity|rewrite app_nil_r; apply Permutation_refl|unfold zlen; rewrite zrange_length; lia|]. intros i x y E1 E2. pose proof (zget_bounds _ _ _ E1) as B. unfold zlen in B. rewrite zrange_length in B. rewrite zget_zrange in E1, E2 by lia. injection E1 as <-. injection E2 as <-. rewrite zget_zrange by lia. reflexivity.
Qed.

Section whole.
Context (T : topology) (HT : valid_topology T) (HS : simplicial T) (keys : list Z) (HW : swappable T keys).
Let D2 : t_dim T = 2 := w_dim T keys HW.
Let HK : splittable T keys := w_apart T keys HW.
Local Notation origs := (flip_origs keys).
Local Notation n0 := (t_nents T 0).
Context (r : Z -> numbering) (L : Z -> list (list Z)).
Context (R0 : r 0 = same_numbers n0).
Context (RN : forall d, 0 <= d <= 2 -> renumbers (t_nents T d) (r d)).
Context (KO : forall d x, 0 <= d <= 2 -> In x (same2old (r d)) <-> 0 <= x < t_nents T d /\ no_key T keys d x).
Context (KN : forall d, 0 <= d <= 2 -> NoDup (same2old (r d))).
Context (PO : forall d, 0 <= d <= 2 -> zlen (prods2new (r d)) = zlen (origs d)).
Context (FO : forall d, 1 <= d <= 2 -> Forall2 (swap_verts T d) (origs d) (L d)).
Local Notation nv := (look (old2new (r 0))).
Local Notation kept := (kept_ent T r).
Lemma nv_id d e row : 0 <= d <= 2 -> ent_verts T d e row -> map nv row = row.
Proof. intros Hd R. rewrite R0. cbn [old2new same_numbers]. apply look_rows. apply (ent_facts T HT HS d e row ltac:(lia) R). Qed.
Lemma prod_at d p row : 1 <= d <= 2 -> zget (L d) p = Ok row -> exists o, zget (origs d) p = Ok o /\ swap_verts T d o row /\ In o (origs d).
Proof.
  intros Hd E. pose proof (FO d Hd) as F. destruct (zget_in_range (origs d) p) as (o & Eo); [apply Forall2_len in F; pose proof (zget_bounds _ _ _ E) as B; unfold zlen in *; lia|]. exists o. split; [exact Eo|]. split; [exact (Forall2_at _ _ _ F p o row Eo E)|eapply zget_In, Eo].
Qed.
Lemma prod_in d row : 1 <= d <= 2 -> In row (L d) -> exists o, swap_verts T d o row /\ In o (origs d).
Proof. intros Hd I. apply P_Map.In_zget in I as (p & E). destruct (prod_at d p row Hd E) as (o & _ & A & B). eauto. Qed.
Lemma in_prod d o : 1 <= d <= 2 -> In o (origs d) -> exists row, In row (L d) /\ swap_verts T d o row.
Proof. intros Hd I. destruct (Forall2_in_l _ _ _ o (FO d Hd) I) as (row & Ir & V). eauto. Qed.
(** the triangle of key [k] on the side of [q] *)
Lemma tri_made k a b x y t u q : In k keys -> diamond T k a b x y t u -> q = a \/ q = b -> exists row, In row (L 2) /\ Permutation row [q; x; y].
Proof.
  intros Ik H Hq. assert (exists p, (p = 0 \/ p = 1) /\ Permutation (if p =? 0 then [b; x; y] else [a; y; x]) [q; x; y]) as (p & Hp & P).
  { destruct Hq as [->| ->]; [exists 1|exists 0]; (split; [auto|]); cbn; [apply perm_skip, perm_swap|apply Permutation_refl]. }
  destruct (in_prod 2 (Swapped k p) ltac:(lia)) as (row & I & V); [apply (flip_origs_in T keys); split; [split; [exact Ik|auto]|discriminate]|]. exists row. split; [exact I|]. destruct V as (a' & b' & x' & y' & t' & u' & H' & E). destruct (dia_unique T HT HS D2 _ _ _ _ _ _ _ _ _ _ _ _ _ H H') as (<- & <- & <- & <- & _). subst row. exact P.
Qed.
Lemma edge_made k a b x y t u : In k keys -> diamond T k a b x y t u -> In [x; y] (L 1).
Proof.
  intros Ik H. destruct (in_prod 1 (Swapped k 0) ltac:(lia)) as (row & I & V); [apply (flip_origs_in T keys); split; [split; [exact Ik|auto]|discriminate]|]. destruct V as (a' & b' & x' & y' & t' & u' & H' & E). destruct (dia_unique T HT HS D2 _ _ _ _ _ _ _ _ _ _ _ _ _ H H') as (<- & <- & <- & <- & _). cbn in E. subst row. exact I.
Qed.
Lemma prod_kind d row : 1 <= d <= 2 -> In row (L d) -> exists k a b x y t u, In k keys /\ diamond T k a b x y t u /\ (d = 1 /\ row = [x; y] \/ d = 2 /\ exists q, (q = a \/ q = b) /\ Permutation row [q; x; y]).
Proof.
  intros Hd I. destruct (prod_in d row Hd I) as (o & V & Io). apply (flip_origs_in T keys) in Io as [M N]. destruct o as [e|k p]; [exfalso; apply (N e); reflexivity|]. destruct V as (a & b & x & y & t & u & H & E). destruct M as [Ik Hp]. exists k, a, b, x, y, t, u. split; [exact Ik|]. split; [exact H|]. destruct (Z.eqb_spec d 1) as [->|]; [left; auto|right]. split; [lia|].
  subst row. destruct (p =? 0); [exists b|exists a]; (split; [auto|]); [apply Permutation_refl|apply perm_skip, perm_swap].
Qed.
Lemma flip_picks : S_Unmap.picks T (fun d => same2old (r d)).
Proof. apply (keyless_picks T HT HS keys); [intros d Hd; apply KN; lia|intros d x Hd; apply KO; lia]. Qed.
Lemma h_rn d : 0 <= d <= t_dim T -> renumbers (t_nents T d) (r d). Proof. intros Hd. apply RN. lia. Qed.
Lemma h_n0 : prods2new (r 0) = []. Proof. rewrite R0. reflexivity. Qed.
Lemma h_len d : 1 <= d <= t_dim T -> zlen (L d) = zlen (prods2new (r d)).
Proof. intros Hd. rewrite (PO d) by lia. pose proof (Forall2_len _ _ _ (FO d ltac:(lia))) as E. unfold zlen. lia. Qed.
Lemma h_rows d row : 1 <= d <= t_dim T -> In row (L d) -> zlen row = d + 1 /\ NoDup row /\ forall v, In v row -> 0 <= v < nnew (r 0).
Proof. intros Hd I. destruct (prod_in d row ltac:(lia) I) as (o & V & Io). rewrite R0. cbn [nnew same_numbers]. apply (flip_row T HT HS keys HW d o row); [lia|assumption|assumption]. Qed.
Lemma h_once d p p' row row' : 1 <= d <= t_dim T -> zget (L d) p = Ok row -> zget (L d) p' = Ok row' -> Permutation row row' -> p = p'.
Proof.
  intros Hd E E' P. destruct (prod_at d p row ltac:(lia) E) as (o & Eo & V & I). destruct (prod_at d p' row' ltac:(lia) E') as (o' & Eo' & V' & I'). assert (o = o') as <- by (apply (flip_once T HT HS keys HW d o o' row row'); try assumption; lia). apply (NoDup_zget _ _ _ _ (flip_origs_nodup T keys HW d) Eo Eo').
Qed.
Lemma h_new d row e row0 : 1 <= d <= t_dim T -> In row (L d) -> kept d e row0 -> ~ Permutation row (map nv row0).
Proof.
  intros Hd I [Ie R] P. rewrite (nv_id d e row0 ltac:(lia) R) in P. apply KO in Ie as [_ NK]; [|lia]. destruct (prod_kind d row ltac:(lia) I) as (k & a & b & x & y & t & u & Ik & H & [[-> ->]|(-> & q & Hq & Pq)]).
  - apply (no_edge T HT HS keys HW k a b x y t u e row0 Ik H R); [apply Permutation_sym, P|exact NK].
  - apply (no_triangle T HT HS keys HW k a b x y t u e row0 Ik H R); [| |exact NK]; apply (Permutation_in _ P), (Permutation_in _ (Permutation_sym Pq)); cbn; tauto.
Qed.
Lemma around_kept k a b x y t u q z : In k keys -> diamond T k a b x y t u -> q = a \/ q = b -> z = x \/ z = y -> exists s srow, kept 1 s srow /\ Permutation (map nv srow) [q; z].
Proof.
  intros Ik H Hq Hz. destruct (around T HT HS keys HW k a b x y t u q z Ik H Hq Hz) as (s & srow & Rs & Ps & NK). exists s, srow. split; [split; [|exact Rs]|rewrite (nv_id 1 s srow ltac:(lia) Rs); exact Ps]. apply KO; [lia|]. split; [apply (ent_range T HT HS 1 s srow ltac:(lia) Rs)|exact NK].
Qed.
Lemma h_sides d row z : 2 <= d <= t_dim T -> In row (L d) -> In z row -> (exists srow, In srow (L (d - 1)) /\ Permutation srow (rm z row)) \/ (exists s srow, kept (d - 1) s srow /\ Permutation (map nv srow) (rm z row)).
Proof.
  intros Hd I Iz. assert (d = 2) as -> by lia. change (2 - 1) with 1. destruct (prod_kind 2 row ltac:(lia) I) as (k & a & b & x & y & t & u & Ik & H & [[E _]|(_ & q & Hq & Pq)]); [lia|]. destruct (h_rows 2 row ltac:(lia) I) as (_ & Nr & _). pose proof (Permutation_NoDup Pq Nr) as Nq.
  destruct (rm_third q x y z row Pq Nq Iz) as (m & n & P & [(_ & -> & ->)|(_ & -> & Hn)]).
  - left. exists [x; y]. split; [eapply edge_made; eassumption|apply Permutation_sym, P].
  - right. destruct (around_kept k a b x y t u q n Ik H Hq Hn) as (s & srow & K & Ps). exists s, srow. split; [exact K|]. apply (Permutation_trans Ps), Permutation_sym, P.
Qed.
Lemma h_up d row : 1 <= d < t_dim T -> In row (L d) -> (exists row', In row' (L (d + 1)) /\ incl row row') \/ (exists e' row', kept (d + 1) e' row' /\ incl row (map nv row')).
Proof.
  intros Hd I. assert (d = 1) as -> by lia. change (1 + 1) with 2. left. destruct (prod_kind 1 row ltac:(lia) I) as (k & a & b & x & y & t & u & Ik & H & [[_ ->]|[E _]]); [|lia]. destruct (tri_made k a b x y t u b Ik H ltac:(auto)) as (row' & I' & P). exists row'. split; [exact I'|]. intros v Hv. apply (Permutation_in _ (Permutation_sym P)). cbn in *. tauto.
Qed.
Lemma h_kept_up d e row : 1 <= d < t_dim T -> kept d e row -> (exists row', In row' (L (d + 1)) /\ incl (map nv row) row') \/ (exists e' row', kept (d + 1) e' row' /\ incl (map nv row) (map nv row')).
Proof.
  intros Hd [I R]. assert (d = 1) as -> by lia. change (1 + 1) with 2. rewrite (nv_id 1 e row ltac:(lia) R). apply KO in I as [He NK]; [|lia]. destruct (s_pure T HS 1 e row ltac:(lia) R) as (e' & row' & R' & Inc). change (1 + 1) with 2 in R'. pose proof (ent_range T HT HS 2 e' row' ltac:(lia) R') as He'.
  destruct (keyed T HT HS keys HK 2 e' ltac:(lia) He') as [(k & Ik & Hk)|NK'].
  - left. destruct (w_between T keys HW k Ik) as (a & b & x & y & t & u & H). pose proof H as (Rk & H1 & H2 & H3). destruct (ent_facts T HT HS 1 e row ltac:(lia) R) as (Nr & Lr & _).
    assert (exists z, (z = x \/ z = y) /\ Permutation row' [a; b; z]) as (z & Hz & Pz).
    { destruct (tri_row T HT HS D2 t _ H1) as (tv & R1 & S1 & _). destruct (tri_row T HT HS D2 u _ H2) as (uv & R2 & S2 & _). apply turn_perm in S1, S2. destruct (H3 e' Hk) as [->| ->].
      - exists x. split; [auto|]. rewrite (ent_unique T 2 t _ _ ltac:(lia) R' R1). exact S1.
      - exists y. split; [auto|]. rewrite (ent_unique T 2 u _ _ ltac:(lia) R' R2). apply (Permutation_trans S2), perm_swap. }
    destruct (edge_row T HT HS e row R) as (m & n & -> & Hmn). assert (In m [a; b; z]) as Jm by (apply (Permutation_in _ Pz), Inc; cbn; tauto). assert (In n [a; b; z]) as Jn by (apply (Permutation_in _ Pz), Inc; cbn; tauto).
    assert (~ (In m [a; b] /\ In n [a; b])) as NB.
    { intros [Km Kn]. apply (NK k Ik). assert (e = k) as ->; [|apply (has_1 T HT HS); split; [reflexivity|exact He]]. apply (P_RefineMesh1.once T HS 1 e k [m; n] [a; b] ltac:(lia) R Rk). apply incl_same; [exact Nr|apply (ent_facts T HT HS 1 k [a; b] ltac:(lia) Rk)| |reflexivity]. intros v [<-|[<-|[]]]; assumption. }
    assert (exists q, (q = a \/ q = b) /\ forall v, In v [m; n] -> v = q \/ v = z) as (q & Hq & Q).
    { cbn in Jm, Jn, NB. destruct Jm as [<-|[<-|[<-|[]]]], Jn as [<-|[<-|[<-|[]]]]; try (exfalso; apply NB; tauto); try congruence; [exists a|exists b|exists a|exists b]; (split; [tauto|]); cbn; intuition congruence. }
    destruct (tri_made k a b x y t u q Ik H Hq) as (row2 & I2 & P2). exists row2. split; [exact I2|]. intros v Hv. apply (Permutation_in _ (Permutation_sym P2)). destruct (Q v Hv) as [->| ->]; cbn; [tauto|]. destruct Hz; subst; tauto.
  - right. exists e', row'. split; [split; [apply KO; [lia|]; split; assumption|exact R']|]. rewrite (nv_id 2 e' row' ltac:(lia) R'). exact Inc.
Qed.
Lemma flip_fits : fits T r (PVL L).
Proof. exact (patch_fits T HT HS r L h_rn flip_picks h_len h_rows h_once h_new h_sides). Qed.
End whole.
