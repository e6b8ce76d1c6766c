(** Meshes of simplices: the parts of an entity. *)
From Coq Require Import String Permutation.
From Verif Require Import Prelude M_Array P_Array M_Par M_Scan S_Sort M_Sort M_Map S_Map P_Map P_Map2 M_Template S_Template P_Template M_Align S_Align P_Align M_Unique S_Unique P_Unique M_Adj S_Adj P_Adj S_Transit P_Transit
  M_Match S_Match P_Match M_Tags M_Modify M_MeshAdj S_MeshAdj P_MeshAdj P_MeshAdj2 P_MeshAdj3 M_Build S_Build P_Build P_Box S_Unmap P_Unmap S_RefineMesh.
Local Open Scope Z_scope.

Lemma polygon_perm {A} (l l' : list A) : same_polygon l l' -> Permutation l l'.
Proof.
  intros [(a & b & -> & ->)|(a & b & E & ->)]; [apply Permutation_app_comm|]. apply (Permutation_trans (Permutation_rev l)). rewrite E. apply Permutation_app_comm.
Qed.
Definition rm (y : Z) (l : list Z) : list Z := filter (fun x => negb (x =? y)) l.
Lemma rm_in y l x : In x (rm y l) <-> In x l /\ x <> y.
Proof. unfold rm. rewrite filter_In. destruct (Z.eqb_spec x y); cbn; intuition congruence. Qed.
Lemma rm_nodup y l : NoDup l -> NoDup (rm y l). Proof. apply NoDup_filter. Qed.
Lemma rm_notin y l : ~ In y l -> rm y l = l.
Proof. induction l as [|x l IH]; [reflexivity|]. intros H. unfold rm. cbn. destruct (Z.eqb_spec x y) as [->|]; [exfalso; apply H; left; reflexivity|]. cbn. f_equal. apply IH. intros I. apply H. right. exact I. Qed.
Lemma rm_perm y l : NoDup l -> In y l -> Permutation l (y :: rm y l).
Proof.
  intros N I. apply NoDup_Permutation; [exact N|constructor; [rewrite rm_in; tauto|apply rm_nodup, N]|]. intros x. cbn. rewrite rm_in. destruct (Z.eq_dec y x); intuition congruence.
Qed.
Lemma rm_len y l : NoDup l -> In y l -> zlen (rm y l) = zlen l - 1.
Proof. intros N I. pose proof (Permutation_length (rm_perm y l N I)) as E. cbn in E. unfold zlen. lia. Qed.
Lemma nodup_same (l m : list Z) : NoDup l -> NoDup m -> (forall x, In x l <-> In x m) -> Permutation l m. Proof. intros N M I. apply NoDup_Permutation; assumption. Qed.
Lemma perm_len {A} (l m : list A) : Permutation l m -> zlen l = zlen m. Proof. intros H. unfold zlen. rewrite (Permutation_length H). reflexivity. Qed.
Lemma incl_same (l m : list Z) : NoDup l -> NoDup m -> incl l m -> zlen l = zlen m -> Permutation l m.
Proof. intros N M I E. apply NoDup_Permutation_bis; [exact N|unfold zlen in E; lia|exact I]. Qed.
Lemma incl_len (l m : list Z) : NoDup l -> incl l m -> zlen l <= zlen m. Proof. intros N I. pose proof (NoDup_incl_length N I). unfold zlen. lia. Qed.
Lemma missing (l m : list Z) : NoDup l -> zlen m < zlen l -> exists y, In y l /\ ~ In y m.
Proof.
  intros N L. destruct (existsb (fun y => negb (existsb (Z.eqb y) m)) l) eqn:E.
  - apply existsb_exists in E as (y & I & E). exists y. split; [exact I|]. intros J. apply negb_true_iff in E. assert (existsb (Z.eqb y) m = true) by (apply existsb_exists; exists y; split; [exact J|apply Z.eqb_refl]). congruence.
  - exfalso. assert (incl l m) as I. { intros y Hy. destruct (in_dec Z.eq_dec y m) as [J|J]; [exact J|]. exfalso. assert (existsb (fun y => negb (existsb (Z.eqb y) m)) l = true); [|congruence]. apply existsb_exists. exists y. split; [exact Hy|]. apply negb_true_iff.
      destruct (existsb (Z.eqb y) m) eqn:Q; [|reflexivity]. apply existsb_exists in Q as (z & Iz & Ez). apply Z.eqb_eq in Ez as ->. contradiction. }
    pose proof (incl_len l m N I). lia.
Qed.

Section complex.
Context (T : topology) (HT : valid_topology T) (HS : simplicial T).
Local Notation D := (t_dim T).
Lemma deg0 d : 1 <= d <= 3 -> element_degree (t_family T) d 0 = d + 1.
Proof. intros Hd. rewrite (s_family T HS). assert (d = 1 \/ d = 2 \/ d = 3) as [->|[->| ->]] by lia; reflexivity. Qed.
Lemma ent_high d e row : 1 <= d -> ent_verts T d e row <-> row_is (d + 1) (t_verts T d) e row.
Proof. intros Hd. unfold ent_verts. destruct (Z.eqb_spec d 0); [lia|tauto]. Qed.
Lemma ent_range d e row : 0 <= d <= D -> ent_verts T d e row -> 0 <= e < t_nents T d.
Proof.
  intros Hd. pose proof (v_dim T HT). unfold ent_verts. destruct (Z.eqb_spec d 0) as [->|]; [tauto|]. intros R. destruct (v_verts T HT d ltac:(lia)) as (L & _). rewrite (deg0 d) in L by lia. apply (row_is_range (d + 1) (t_verts T d) _ e row ltac:(lia) L R).
Qed.
Lemma ent_row d e : 0 <= d <= D -> 0 <= e < t_nents T d -> exists row, ent_verts T d e row.
Proof.
  intros Hd He. pose proof (v_dim T HT). unfold ent_verts. destruct (Z.eqb_spec d 0) as [->|]; [eauto|]. destruct (v_verts T HT d ltac:(lia)) as (L & _). rewrite (deg0 d) in L by lia. exists (tuple (t_verts T d) (d + 1) e). apply (row_is_tuple (d + 1) _ (t_nents T d)); [lia|exact L|exact He].
Qed.
Lemma ent_unique d e row row' : 0 <= d -> ent_verts T d e row -> ent_verts T d e row' -> row = row'.
Proof. intros Hd. unfold ent_verts. destruct (Z.eqb_spec d 0) as [->|]; [intros [_ ->] [_ ->]; reflexivity|]. intros R R'. apply (row_is_unique _ _ _ _ _ R R'). Qed.
Lemma ent_facts d e row : 0 <= d <= D -> ent_verts T d e row -> NoDup row /\ zlen row = d + 1 /\ forall v, In v row -> 0 <= v < t_nents T 0.
Proof.
  intros Hd. pose proof (v_dim T HT). unfold ent_verts. destruct (Z.eqb_spec d 0) as [->|]; [intros [R ->]; split; [repeat constructor; intros []|split; [reflexivity|intros v [<-|[]]; exact R]]|]. intros R. destruct (v_verts T HT d ltac:(lia)) as (L & N & B). rewrite (deg0 d) in * by lia.
  split; [exact (N e row R)|]. split; [apply R|]. intros v Hv. apply In_zget in Hv as (j & Ej). pose proof (zget_bounds _ _ _ Ej) as Bj. rewrite (proj1 R) in Bj. rewrite <- (row_zget _ _ _ _ _ R Bj) in Ej. apply B. eapply zget_In, Ej.
Qed.
Lemma edge_row k row : ent_verts T 1 k row -> exists a b, row = [a; b] /\ a <> b.
Proof.
  intros R. pose proof (v_dim T HT). destruct (ent_facts 1 k row ltac:(lia) R) as (N & L & _). destruct row as [|a [|b [|? ?]]]; unfold zlen in L; cbn in L; try lia. exists a, b. split; [reflexivity|]. intros ->. inversion N as [|? ? Nx _]; subst. apply Nx. left. reflexivity.
Qed.

(** the side opposite to a vertex *)
Lemma zget_list_perm (row vs xs : list Z) : Forall2 (fun v x => zget row v = Ok x) vs xs -> NoDup row -> NoDup vs -> NoDup xs.
Proof.
  intros F N. induction F as [|v x vs xs E F IH]; [constructor|]. intros Nv. inversion Nv as [|? ? Nx Nr]; subst. constructor; [|auto]. intros I. apply Nx. clear - F I E N. induction F as [|w y ws ys Ey F IH]; [destruct I|]. destruct I as [->|I]; [left; eapply NoDup_zget; eassumption|right; auto].
Qed.
Lemma zget_list_in (row vs xs : list Z) x : Forall2 (fun v x => zget row v = Ok x) vs xs -> In x xs -> exists v, In v vs /\ zget row v = Ok x.
Proof. intros F. induction F as [|v y vs xs E F IH]; [intros []|]. intros [->|I]; [exists v; split; [left; reflexivity|exact E]|]. destruct (IH I) as (w & Iw & Ew). exists w. split; [right; exact Iw|exact Ew]. Qed.

Lemma opposite_side d j : d = 2 \/ d = 3 -> 0 <= j <= d -> exists u, 0 <= u < element_degree OMEGA_H_SIMPLEX d (d - 1) /\ NoDup (side_verts OMEGA_H_SIMPLEX d (d - 1) u) /\ ~ In j (side_verts OMEGA_H_SIMPLEX d (d - 1) u) /\ zlen (side_verts OMEGA_H_SIMPLEX d (d - 1) u) = d.
Proof.
  intros Hd Hj. exists (simplex_opposite_template d 0 j).
  destruct Hd as [->| ->].
  - assert (j = 0 \/ j = 1 \/ j = 2) as [->|[->| ->]] by lia; (split; [vm_compute; split; congruence|]); (split; [vm_compute; repeat constructor; cbn; intuition congruence|]); (split; [vm_compute; intuition congruence|reflexivity]).
  - assert (j = 0 \/ j = 1 \/ j = 2 \/ j = 3) as [->|[->|[->| ->]]] by lia; (split; [vm_compute; split; congruence|]); (split; [vm_compute; repeat constructor; cbn; intuition congruence|]); (split; [vm_compute; intuition congruence|reflexivity]).
Qed.

Lemma side_ent d e row u srow : 2 <= d <= D -> ent_verts T d e row -> 0 <= u < element_degree OMEGA_H_SIMPLEX d (d - 1) -> Forall2 (fun v x => zget row v = Ok x) (side_verts OMEGA_H_SIMPLEX d (d - 1) u) srow ->
  exists s lrow, ent_verts T (d - 1) s lrow /\ Permutation lrow srow.
Proof.
  intros Hd R Hu F. pose proof (v_dim T HT) as HD. apply ent_high in R; [|lia]. destruct (v_down T HT d ltac:(lia)) as (ab & codes & _ & _ & _ & RF). rewrite (s_family T HS) in RF.
  destruct (RF e u srow) as (l & code & lrow & _ & _ & Rl & Al & _). { exists row. split; [|split; [exact Hu|exact F]]. pose proof (deg0 d ltac:(lia)) as E. rewrite (s_family T HS) in E. rewrite E. exact R. }
  pose proof (deg0 (d - 1) ltac:(lia)) as E. rewrite (s_family T HS) in E. rewrite E in *. exists l, lrow. split; [apply ent_high; [lia|exact Rl]|]. apply polygon_perm. apply (polygon_spec (d - 1 + 1) code lrow srow); [lia|exact (proj1 Rl)|exact Al].
Qed.
Lemma ent_face d e row y : 1 <= d <= D -> ent_verts T d e row -> In y row -> exists s srow, ent_verts T (d - 1) s srow /\ Permutation srow (rm y row).
Proof.
  intros Hd R Iy. pose proof (v_dim T HT) as HD. destruct (ent_facts d e row ltac:(lia) R) as (N & L & B). destruct (Z.eq_dec d 1) as [->|Hd1].
  - destruct (edge_row e row R) as (a & b & -> & Hab). cbn in Iy. destruct Iy as [->|[->|[]]].
    + exists b, [b]. split; [split; [apply B; right; left; reflexivity|reflexivity]|]. unfold rm. cbn. rewrite Z.eqb_refl. destruct (Z.eqb_spec b y); [congruence|]. cbn. apply Permutation_refl.
    + exists a, [a]. split; [split; [apply B; left; reflexivity|reflexivity]|]. unfold rm. cbn. rewrite Z.eqb_refl. destruct (Z.eqb_spec a y); [congruence|]. cbn. apply Permutation_refl.
  - destruct (In_zget _ _ Iy) as (j & Ej). pose proof (zget_bounds _ _ _ Ej) as Bj. destruct (opposite_side d j ltac:(lia) ltac:(lia)) as (u & Hu & Nu & Ju & Lu).
    destruct (side_exists OMEGA_H_SIMPLEX d (d - 1) (t_verts T d) e u row ltac:(lia) ltac:(lia)) as (srow & hr & R' & _ & F); [pose proof (deg0 d ltac:(lia)) as E; rewrite (s_family T HS) in E; rewrite E; apply ent_high; [lia|exact R]|exact Hu|].
    assert (hr = row) as ->. { pose proof (deg0 d ltac:(lia)) as E. rewrite (s_family T HS) in E. rewrite E in R'. apply (ent_unique d e); [lia|apply ent_high; [lia|exact R']|exact R]. }
    destruct (side_ent d e row u srow ltac:(lia) R Hu F) as (s & lrow & Rl & P). exists s, lrow. split; [exact Rl|]. apply (Permutation_trans P). apply incl_same.
    + eapply zget_list_perm; eassumption.
    + apply rm_nodup, N.
    + intros x Hx. destruct (zget_list_in _ _ _ _ F Hx) as (v & Iv & Ev). rewrite rm_in. split; [eapply zget_In, Ev|]. intros ->. apply Ju. assert (v = j) as <- by (exact (NoDup_zget row v j y N Ev Ej)). exact Iv.
    + rewrite (rm_len y row N Iy), L. apply Forall2_len in F. unfold zlen in *. lia.
Qed.
Lemma ent_part : forall n d e row B, 0 <= d <= D -> ent_verts T d e row -> NoDup B -> incl B row -> B <> [] -> zlen row - zlen B = Z.of_nat n -> exists s srow, ent_verts T (zlen B - 1) s srow /\ Permutation srow B.
Proof.
  intros n. induction n as [|n IH]; intros d e row B Hd R NB I NE L.
  - destruct (ent_facts d e row Hd R) as (N & Lr & _). exists e, row. replace (zlen B - 1) with d by lia. split; [exact R|]. apply Permutation_sym, incl_same; try assumption. lia.
  - destruct (ent_facts d e row Hd R) as (N & Lr & _). destruct (missing row B N ltac:(lia)) as (y & Iy & Jy). assert (1 <= d) as Hd1. { assert (0 < zlen B) by (destruct B; [congruence|unfold zlen; cbn; lia]). lia. }
    destruct (ent_face d e row y ltac:(lia) R Iy) as (s & srow & Rs & P). apply (IH (d - 1) s srow B ltac:(lia) Rs NB).
    + intros x Hx. apply (Permutation_in _ (Permutation_sym P)). rewrite rm_in. split; [apply I, Hx|]. intros ->. contradiction.
    + exact NE.
    + rewrite (perm_len _ _ P), (rm_len y row N Iy). lia.
Qed.
Lemma part d e row B : 0 <= d <= D -> ent_verts T d e row -> NoDup B -> incl B row -> B <> [] -> exists s srow, ent_verts T (zlen B - 1) s srow /\ Permutation srow B.
Proof.
  intros Hd R N I NE. destruct (ent_facts d e row Hd R) as (Nr & Lr & _). pose proof (incl_len B row N I). apply (ent_part (Z.to_nat (zlen row - zlen B)) d e row B); try assumption. lia.
Qed.
Lemma once d e e' row row' : 0 <= d <= D -> ent_verts T d e row -> ent_verts T d e' row' -> Permutation row row' -> e = e'.
Proof.
  intros Hd R R' P. destruct (Z.eq_dec d 0) as [->|]; [|apply (s_once T HS d e e' row row'); try assumption; lia]. destruct R as [_ ->], R' as [_ ->]. apply Permutation_length_1 in P. congruence.
Qed.
(** every entity is part of an element *)
Lemma in_element : forall n d e row, 1 <= d -> D - d = Z.of_nat n -> ent_verts T d e row -> forall d', d <= d' <= D -> exists e' row', ent_verts T d' e' row' /\ incl row row'.
Proof.
  intros n. induction n as [|n IH]; intros d e row Hd L R d' Hd'; [assert (d' = d) as -> by lia; exists e, row; split; [exact R|apply incl_refl]|]. destruct (Z.eq_dec d' d) as [->|]; [exists e, row; split; [exact R|apply incl_refl]|].
  destruct (s_pure T HS d e row ltac:(lia) R) as (e1 & row1 & R1 & I1). destruct (IH (d + 1) e1 row1 ltac:(lia) ltac:(lia) R1 d' ltac:(lia)) as (e2 & row2 & R2 & I2). exists e2, row2. split; [exact R2|]. intros x Hx. apply I2, I1, Hx.
Qed.
Lemma within d e row d' : 1 <= d <= D -> ent_verts T d e row -> d <= d' <= D -> exists e' row', ent_verts T d' e' row' /\ incl row row'.
Proof. intros Hd R Hd'. exact (in_element (Z.to_nat (D - d)) d e row ltac:(lia) ltac:(lia) R d' Hd'). Qed.
(** edges as the mesh lists them *)
Lemma edge_between d i j : d = 2 \/ d = 3 -> 0 <= i <= d -> 0 <= j <= d -> i <> j -> exists u, 0 <= u < element_degree OMEGA_H_SIMPLEX d 1 /\ (side_verts OMEGA_H_SIMPLEX d 1 u = [i; j] \/ side_verts OMEGA_H_SIMPLEX d 1 u = [j; i]).
Proof.
  intros Hd Hi Hj Hn. assert (forallb (fun d => forallb (fun i => forallb (fun j => (i =? j) || existsb (fun u => leqb (side_verts OMEGA_H_SIMPLEX d 1 u) [i; j] || leqb (side_verts OMEGA_H_SIMPLEX d 1 u) [j; i]) (zrange (element_degree OMEGA_H_SIMPLEX d 1))) (zrange (d + 1))) (zrange (d + 1))) [2; 3] = true) as H by (vm_compute; reflexivity).
  rewrite forallb_forall in H. specialize (H d ltac:(cbn; intuition lia)). rewrite forallb_forall in H. specialize (H i ltac:(apply in_zrange; lia)). rewrite forallb_forall in H. specialize (H j ltac:(apply in_zrange; lia)). apply orb_prop in H as [H|H]; [apply Z.eqb_eq in H; lia|].
  apply existsb_exists in H as (u & Hu & H). apply in_zrange in Hu. exists u. split; [exact Hu|]. apply orb_prop in H as [H|H]; apply leqb_spec in H; auto.
Qed.
Lemma has_1 x k : has_edge T 1 x k <-> x = k /\ 0 <= x < t_nents T 1.
Proof.
  pose proof (v_dim T HT) as HD. split.
  - intros (row & a & b & Rx & Rk & Ia & Ib). pose proof (ent_range 1 x row ltac:(lia) Rx). split; [|assumption]. destruct (ent_facts 1 x row ltac:(lia) Rx) as (Nr & Lr & _). destruct (ent_facts 1 k _ ltac:(lia) Rk) as (Nk & Lk & _).
    apply (once 1 x k row [a; b]); try assumption; [lia|]. apply Permutation_sym, incl_same; try assumption; [|lia]. intros y [<-|[<-|[]]]; assumption.
  - intros [<- Hx]. destruct (ent_row 1 x ltac:(lia) Hx) as (row & R). destruct (edge_row x row R) as (a & b & -> & _). exists [a; b], a, b. split; [exact R|]. split; [exact R|]. split; [left; reflexivity|right; left; reflexivity].
Qed.
Lemma has_0 x k : ~ has_edge T 0 x k.
Proof.
  pose proof (v_dim T HT) as HD. intros (row & a & b & [_ ->] & Rk & Ia & Ib). destruct (ent_facts 1 k _ ltac:(lia) Rk) as (Nk & _). destruct Ia as [<-|[]], Ib as [<-|[]]. inversion Nk as [|? ? Nx _]; subst. apply Nx. left. reflexivity.
Qed.
Lemma has_above d x k : 1 <= d <= D -> has_edge T d x k -> forall row, ent_verts T d x row -> forall d' x' row', ent_verts T d' x' row' -> incl row row' -> has_edge T d' x' k.
Proof. intros Hd (row0 & a & b & R & Rk & Ia & Ib) row Rw d' x' row' R' I. assert (row0 = row) as -> by (apply (ent_unique d x); [lia|assumption|assumption]). exists row', a, b. auto. Qed.
Section keys.
Context (keys : list Z) (HK : splittable T keys).
Lemma one_key d x k k' : 1 <= d <= D -> In k keys -> In k' keys -> has_edge T d x k -> has_edge T d x k' -> k = k'.
Proof.
  intros Hd I I' H H'. pose proof (v_dim T HT). pose proof H as (row & a & b & R & _). destruct (within d x row D ltac:(lia) R ltac:(lia)) as (e & rowe & Re & Inc). apply (k_apart T keys HK e k k' I I'); eapply has_above; eassumption.
Qed.
Lemma key_has k d : In k keys -> 1 <= d <= D -> exists c, has_edge T d c k.
Proof.
  intros I Hd. pose proof (v_dim T HT). destruct (ent_row 1 k ltac:(lia) (k_edges T keys HK k I)) as (row & R). destruct (within 1 k row d ltac:(lia) R ltac:(lia)) as (c & rowc & Rc & Inc). exists c. apply (has_above 1 k k ltac:(lia)) with (row := row) (row' := rowc); try assumption. apply has_1. split; [reflexivity|apply (k_edges T keys HK), I].
Qed.
End keys.
End complex.
