(** Boxes filled by the same pieces in every cell: the elements are proper, and any mesh with them and all their sides fills the box. *)
From Verif Require Import Prelude S_Sort S_Scan P_Scan M_Template S_Template P_Template M_Align S_Align P_Align M_Unique S_Unique P_Unique M_Adj S_Adj P_Adj S_Transit P_Transit S_Match P_Match
  M_MeshAdj S_MeshAdj S_Build S_Simplify S_Box P_Grid.
Local Open Scope Z_scope.

(** ** Sides of the elements of a topology *)
Section topo.
Context (f : family) (dim : Z) (ev2v : list Z) (nv : Z) (T : topology).
Hypothesis HT : topology_of f dim ev2v nv T.
Let hl2l := adj_ab2b (t_down T dim).
Let ns := element_degree f dim (dim - 1).
Lemma topo_len : zlen hl2l = t_nents T dim * ns.
Proof.
  destruct HT as (V & F & D & _ & EV & _). unfold hl2l, ns. destruct (Z.eq_dec dim 1) as [->|N].
  - rewrite (v_edges _ V). cbn [adj_ab2b]. pose proof (v_verts _ V 1 ltac:(rewrite D; lia)) as (L & _). rewrite L, F. reflexivity.
  - pose proof (v_dim _ V) as B. destruct (v_down _ V dim ltac:(lia)) as (ab & codes & E & L & _). rewrite E. cbn [adj_ab2b]. rewrite L, F. reflexivity.
Qed.
Lemma topo_use e w row : is_side f dim (dim - 1) ev2v e w row -> exists s, zget hl2l (e * ns + w) = Ok s /\
  if dim =? 1 then row = [s] else matches (element_degree f (dim - 1) 0) (t_verts T (dim - 1)) row s.
Proof.
  intros HS. pose proof HT as (V & F & D & _ & EV & _). pose proof (v_dim _ V) as B. unfold hl2l, ns. destruct (Z.eqb_spec dim 1) as [->|N].
  - rewrite (v_edges _ V). cbn [adj_ab2b]. destruct HS as (hrow & HR & Hw & HF). change (1 - 1) with 0 in *.
    assert (element_degree f 1 0 = 2) as E2 by (destruct f; reflexivity). rewrite E2 in *. destruct HR as [HL HR]. destruct (HR w Hw) as (x & X1 & X2). rewrite EV. exists x. split; [exact X1|].
    assert (side_verts f 1 0 w = [w]) as SV by (assert (w = 0 \/ w = 1) as [->| ->] by lia; destruct f; reflexivity). rewrite SV in HF.
    inversion HF as [|a y l l' Hy HF' E1 E1']; subst. inversion HF'; subst. congruence.
  - destruct (v_down _ V dim ltac:(lia)) as (ab & codes & E & L & _ & R). rewrite E. cbn [adj_ab2b]. rewrite <- EV in HS. rewrite F in R.
    destruct (R _ _ _ HS) as (l & code & lrow & Z1 & Z2 & Z3 & Z4 & Z5). exists l. split; [exact Z1|]. exists lrow. split; [exact Z3|].
    pose proof (low_degree f (dim - 1) ltac:(lia)) as LD. eapply polygon_spec; [exact LD|apply Z3|exact Z4].
Qed.
Lemma topo_same e w e' w' row row' s : is_side f dim (dim - 1) ev2v e w row -> is_side f dim (dim - 1) ev2v e' w' row' ->
  zget hl2l (e * ns + w) = Ok s -> zget hl2l (e' * ns + w') = Ok s -> forall v, In v row <-> In v row'.
Proof.
  intros S1 S2 E1 E2 v. destruct (topo_use _ _ _ S1) as (s1 & F1 & G1), (topo_use _ _ _ S2) as (s2 & F2 & G2).
  assert (s1 = s) as -> by congruence. assert (s2 = s) as -> by congruence. destruct (Z.eqb_spec dim 1) as [->|N]; [subst; reflexivity|].
  destruct G1 as (r1 & R1 & P1), G2 as (r2 & R2 & P2). assert (r1 = r2) as <- by (eapply row_is_unique; eassumption).
  rewrite <- (polygon_set _ _ P1), <- (polygon_set _ _ P2). reflexivity.
Qed.
Lemma topo_unique e w e' w' row row' s : is_side f dim (dim - 1) ev2v e w row -> is_side f dim (dim - 1) ev2v e' w' row' -> same_polygon row row' ->
  zget hl2l (e * ns + w) = Ok s -> zget hl2l (e' * ns + w') = Ok s.
Proof.
  intros S1 S2 P E1. destruct (topo_use _ _ _ S1) as (s1 & F1 & G1), (topo_use _ _ _ S2) as (s2 & F2 & G2).
  assert (s1 = s) as -> by congruence. rewrite F2. f_equal. pose proof HT as (V & F & D & _ & EV & HO). pose proof (v_dim _ V) as B.
  destruct (Z.eqb_spec dim 1) as [->|N].
  - subst. pose proof (polygon_set _ _ P s) as Q. cbn in Q. destruct Q as [Q _]. destruct (Q (or_introl eq_refl)) as [<-|[]]. reflexivity.
  - destruct (HO (dim - 1) ltac:(lia)) as [_ H2]. destruct (H2 _ _ _ S2) as (k & K1 & K2). rewrite (K2 _ G2). symmetry. apply K2. destruct G1 as (r1 & R1 & P1). exists r1. split; [exact R1|].
    pose proof (low_degree f (dim - 1) ltac:(lia)) as LD. eapply same_polygon_trans; [rewrite (proj1 R1); exact LD|exact P1|exact P].
Qed.
Lemma topo_side s row : (dim = 1 -> forall v, 0 <= v < nv -> In v ev2v) -> 0 <= s < t_nents T (dim - 1) -> side_row T s row ->
  exists e w, is_side f dim (dim - 1) ev2v e w row /\ zget hl2l (e * ns + w) = Ok s.
Proof.
  intros HU Hs HR. pose proof HT as (V & F & D & NV & EV & HO). pose proof (v_dim _ V) as B. unfold side_row in HR. rewrite D, F in HR. unfold hl2l, ns. destruct (Z.eqb_spec dim 1) as [E1|N].
  - rewrite E1 in Hs, D, EV |- *. change (1 - 1) with 0 in *. rewrite NV in Hs. specialize (HU E1 s Hs). subst row.
    apply In_nth_error in HU as (k & Hk). assert (zget ev2v (Z.of_nat k) = Ok s) as Zk by (apply zget_nat; exact Hk). pose proof (zget_bounds _ _ _ Zk) as Bk.
    pose proof (v_verts _ V 1 ltac:(lia)) as (L & _ & _). rewrite F in L. assert (element_degree f 1 0 = 2) as E2 by (destruct f; reflexivity). rewrite E2 in L. rewrite EV in L.
    set (e := Z.of_nat k / 2). set (w := Z.of_nat k mod 2). assert (Z.of_nat k = e * 2 + w) as Ek by (unfold e, w; pose proof (Z.div_mod (Z.of_nat k) 2 ltac:(lia)); lia).
    assert (0 <= w < 2) as Bw by (apply Z.mod_pos_bound; lia). assert (0 <= e < t_nents T 1) as Be by lia. exists e, w.
    assert (row_is 2 ev2v e (tuple ev2v 2 e)) as RT by (apply row_is_tuple with (t_nents T 1); [lia|exact L|exact Be]).
    assert (is_side f 1 0 ev2v e w [s]) as HS.
    { exists (tuple ev2v 2 e). rewrite E2. split; [exact RT|]. split; [exact Bw|]. assert (side_verts f 1 0 w = [w]) as -> by (assert (w = 0 \/ w = 1) as [->| ->] by lia; destruct f; reflexivity).
      constructor; [|constructor]. rewrite <- (row_zget 2 ev2v e _ w RT Bw), <- Ek. exact Zk. }
    split; [exact HS|]. destruct (topo_use e w [s]) as (s' & Z1 & Z2); [rewrite E1; exact HS|]. unfold hl2l, ns in Z1. rewrite E1 in Z1, Z2. cbn in Z2. injection Z2 as ->. exact Z1.
  - destruct (HO (dim - 1) ltac:(lia)) as [H1 H2]. destruct (H1 _ _ HR) as (e & w & HS). exists e, w. split; [exact HS|]. destruct (topo_use _ _ _ HS) as (s' & Z1 & Z2).
    destruct (Z.eqb_spec dim 1); [contradiction|]. destruct (H2 _ _ _ HS) as (k & K1 & K2). fold hl2l. fold ns. rewrite Z1. f_equal. rewrite (K2 _ Z2). symmetry. apply K2. exists row. split; [exact HR|apply same_polygon_refl].
Qed.
End topo.

(** ** Translations *)
Lemma size_moved dim b pts : size dim (map (plus b) pts) = size dim pts.
Proof.
  destruct b as [[bx by_] bz]. unfold size. destruct dim as [|[[?|?|]|[?|?|]|]|?]; try reflexivity.
  - unfold volume6. do 5 (destruct pts as [|[[? ?] ?] pts]; try reflexivity). cbn [map plus minus det3]. f_equal; [f_equal|]; f_equal; try ring; f_equal; ring.
  - do 4 (destruct pts as [|[[? ?] ?] pts]; try reflexivity). cbn [map plus minus axis]. f_equal; f_equal; ring.
  - do 3 (destruct pts as [|[[? ?] ?] pts]; try reflexivity). cbn [map plus minus axis]. ring.
Qed.
Lemma corners_moved dim b : map (plus b) (cell_corners dim (0, 0, 0)) = cell_corners dim b.
Proof. unfold cell_corners. rewrite map_map. apply map_ext. intros p. f_equal. destruct (twice (corner p)) as [[? ?] ?]. reflexivity. Qed.

(** the pieces of a cell, as a finite check *)
Fixpoint apartb (l : list point) : bool := match l with [] => true | p :: l => negb (memb p l) && apartb l end.
Lemma apartb_ok l : apartb l = true -> NoDup l.
Proof.
  induction l as [|p l IH]; cbn [apartb]; intros H; [constructor|]. apply andb_true_iff in H as [A B]. apply negb_true_iff in A. constructor; [|apply IH, B]. intros I. apply memb_ok in I. congruence.
Qed.
Definition pieces_ok (f : family) (dim : Z) (pieces : list (list point)) : bool :=
  forallb (fun offs => zlen offs =? element_degree f dim 0) pieces &&
  match f with
  | OMEGA_H_SIMPLEX => forallb (fun offs => 0 <? size dim offs) pieces && (zsum (map (size dim) pieces) =? factorial dim * 2 ^ dim)
  | OMEGA_H_HYPERCUBE => match pieces with [offs] => eqlb offs (cell_corners dim (0, 0, 0)) | _ => false end end &&
  forallb apartb pieces && negb (zlen pieces =? 0).

Lemma rows_len {A} (g : Z -> list A) k n : (forall c, 0 <= c < n -> zlen (g c) = k) -> 0 <= n -> zlen (flat_map g (zrange n)) = n * k.
Proof.
  intros Hk Hn. rewrite flat_map_concat_map, (zlen_concat k); [rewrite zlen_map, zlen_zrange by lia; reflexivity|].
  apply Forall_forall. intros l Hl. apply in_map_iff in Hl as (y & <- & Hy). apply in_zrange in Hy. apply Hk, Hy.
Qed.
Lemma rows_get {A} (g : Z -> list A) k n : (forall c, 0 <= c < n -> zlen (g c) = k) -> forall c r, 0 <= c < n -> 0 <= r < k -> zget (flat_map g (zrange n)) (c * k + r) = zget (g c) r.
Proof.
  intros Hk c r Hc Hr. rewrite flat_map_concat_map. apply zget_concat; [|rewrite zget_map, zget_zrange by lia; reflexivity|exact Hr].
  apply Forall_forall. intros l Hl. apply in_map_iff in Hl as (y & <- & Hy). apply in_zrange in Hy. apply Hk, Hy.
Qed.
Lemma zsum_const {A} (g : A -> Z) k l : (forall y, In y l -> g y = k) -> zsum (map g l) = zlen l * k.
Proof. induction l as [|y l IH]; intros H; [reflexivity|]. cbn [map zsum fold_right]. fold (zsum (map g l)). rewrite IH by (intros; apply H; right; assumption). rewrite (H y) by (left; reflexivity). rewrite zlen_cons. lia. Qed.
Lemma zsum_concat {A} (g : A -> Z) (ls : list (list A)) : zsum (map g (concat ls)) = zsum (map (fun l => zsum (map g l)) ls).
Proof. induction ls as [|l ls IH]; [reflexivity|]. cbn [concat map]. rewrite map_app, zsum_app, IH. reflexivity. Qed.

(** ** A layout of pieces *)
Section layout.
Context (f : family) (dim nx ny nz nv : Z) (ps : list (list Z)) (off : Z -> point) (x : Z -> Z -> Z) (place : Z -> point).
Hypothesis Hdim : 1 <= dim <= 3.
Hypothesis Hnx : 0 < nx.
Hypothesis Hny : 0 < ny.
Hypothesis Hnz : 0 < nz.
Hypothesis Uy : dim < 2 -> ny = 1.
Hypothesis Uz : dim < 3 -> nz = 1.
Let pieces := map (map off) ps.
Hypothesis Htable : table_ok f dim pieces = true.
Hypothesis Hpieces : pieces_ok f dim pieces = true.
Let np := zlen ps.
Let nc := nx * ny * nz.
Let deg := element_degree f dim 0.
Definition layout_rows : list (list Z) := flat_map (fun c => map (map (x c)) ps) (zrange nc).
Let ev2v := concat layout_rows.
Hypothesis Hx : forall c p, 0 <= c < nc -> In p (concat ps) -> 0 <= x c p < nv /\ place (x c p) = plus (base nx ny c) (off p).
Hypothesis Hin : forall v a, 0 <= v < nv -> 0 <= a < dim -> 0 <= axis a (place v) <= 2 * n nx ny nz a.
Hypothesis Hap : forall v w, 0 <= v < nv -> 0 <= w < nv -> place v = place w -> v = w.
Hypothesis H1 : dim = 1 -> forall v, 0 <= v < nv -> In v ev2v.

Lemma nc_pos : 0 < nc. Proof. unfold nc. nia. Qed.
Lemma piece_facts : (forall offs, In offs pieces -> zlen offs = deg /\ NoDup offs) /\ 0 < np.
Proof.
  unfold pieces_ok in Hpieces. apply andb_true_iff in Hpieces as [A D]. apply andb_true_iff in A as [A C]. apply andb_true_iff in A as [A _]. rewrite forallb_forall in A, C. split.
  - intros offs Ho. specialize (A _ Ho). specialize (C _ Ho). split; [lia|apply apartb_ok, C].
  - apply negb_true_iff, Z.eqb_neq in D. unfold pieces in D. rewrite zlen_map in D. unfold np. pose proof (zlen_nonneg ps). lia.
Qed.
Lemma ps_len pr : In pr ps -> zlen pr = deg.
Proof. intros H. pose proof (proj1 piece_facts (map off pr)) as K. rewrite zlen_map in K. apply K. apply in_map, H. Qed.
Lemma rows_deg : Forall (fun r => zlen r = deg) layout_rows.
Proof. apply Forall_forall. intros r Hr. unfold layout_rows in Hr. apply in_flat_map in Hr as (c & _ & Hr). apply in_map_iff in Hr as (pr & <- & Hp). rewrite zlen_map. apply ps_len, Hp. Qed.
Lemma rows_count : zlen layout_rows = nc * np.
Proof. unfold layout_rows. apply rows_len; [intros; apply zlen_map|pose proof nc_pos; lia]. Qed.
Lemma ev2v_len : zlen ev2v = nc * np * deg.
Proof. unfold ev2v. rewrite (P_Align.zlen_concat deg) by apply rows_deg. rewrite rows_count. reflexivity. Qed.
Lemma deg_positive : 0 < deg. Proof. apply degree_pos; lia. Qed.
Lemma ev2v_row e row : row_is deg ev2v e row -> 0 <= e < nc * np /\ exists pr, zget ps (e mod np) = Ok pr /\ row = map (x (e / np)) pr.
Proof.
  intros HR. pose proof (proj2 piece_facts) as Np. pose proof (row_is_range deg ev2v (nc * np) e row deg_positive ev2v_len HR) as Be. split; [exact Be|].
  assert (0 <= e / np < nc) as Bc by (split; [apply Z.div_pos; lia|apply Z.div_lt_upper_bound; lia]). assert (0 <= e mod np < np) as Br by (apply Z.mod_pos_bound; lia).
  destruct (zget_in_range ps (e mod np) Br) as (pr & Hp). exists pr. split; [exact Hp|]. eapply row_is_unique; [exact HR|]. apply row_of_concat; [apply rows_deg|].
  assert (e = e / np * np + e mod np) as Ee by (pose proof (Z.div_mod e np ltac:(lia)); lia). rewrite Ee at 1. unfold layout_rows. rewrite (rows_get _ np) by (try assumption; intros; apply zlen_map).
  rewrite zget_map, Hp. reflexivity.
Qed.
Lemma cell_here e : 0 <= e < nc * np -> 0 <= e / np < nc.
Proof. pose proof (proj2 piece_facts) as Np. intros Be. split; [apply Z.div_pos; lia|apply Z.div_lt_upper_bound; lia]. Qed.
Lemma ev2v_in v : In v ev2v -> 0 <= v < nv.
Proof.
  unfold ev2v. intros H. apply in_concat in H as (r & Hr & Hv). unfold layout_rows in Hr. apply in_flat_map in Hr as (c & Hc & Hr). apply in_zrange in Hc.
  apply in_map_iff in Hr as (pr & <- & Hp). apply in_map_iff in Hv as (p & <- & Hpp). apply Hx; [exact Hc|]. apply in_concat. eauto.
Qed.
Lemma row_places e row : row_is deg ev2v e row -> exists offs, zget pieces (e mod np) = Ok offs /\ map place row = map (plus (base nx ny (e / np))) offs.
Proof.
  intros HR. destruct (ev2v_row _ _ HR) as (Be & pr & Hp & ->). exists (map off pr). split; [unfold pieces; rewrite zget_map, Hp; reflexivity|]. rewrite !map_map. apply map_ext_in. intros p Hpp.
  apply Hx; [apply cell_here, Be|]. apply in_concat. exists pr. split; [eapply zget_In, Hp|exact Hpp].
Qed.
Lemma row_apart e row : row_is deg ev2v e row -> NoDup row.
Proof.
  intros HR. destruct (row_places _ _ HR) as (offs & Ho & E). apply (NoDup_map_inv place). rewrite E. apply FinFun.Injective_map_NoDup; [intros p q; apply plus_inj|].
  eapply (proj1 piece_facts), zget_In, Ho.
Qed.
Lemma layout_proper : 0 <= nv -> proper_elements f dim ev2v nv.
Proof. intros Hn. split; [exact Hdim|]. split; [exact Hn|]. split; [exists (nc * np); apply ev2v_len|]. split; [exact row_apart|exact ev2v_in]. Qed.

Lemma layout_volume : volume dim (n nx ny nz) = nc.
Proof.
  unfold volume, nc. assert (dim = 1 \/ dim = 2 \/ dim = 3) as [E|[E|E]] by lia; rewrite E.
  - change (nx * 1 = nx * ny * nz). rewrite Uy, Uz by lia. ring.
  - change (nx * (ny * 1) = nx * ny * nz). rewrite Uz by lia. ring.
  - change (nx * (ny * (nz * 1)) = nx * ny * nz). ring.
Qed.
Theorem layout_fills T : topology_of f dim ev2v nv T -> fills_box (n nx ny nz) T place.
Proof.
  intros HT. pose proof HT as (V & F & D & NV & EV & _). pose proof (proj2 piece_facts) as Np. constructor; rewrite ?F, ?D, ?NV, ?EV.
  - exact Hin.
  - exact Hap.
  - intros e row HR. destruct (row_places _ _ HR) as (offs & Ho & ->). apply zget_In in Ho. pose proof Hpieces as K. unfold pieces_ok in K.
    apply andb_true_iff in K as [K _]. apply andb_true_iff in K as [K _]. apply andb_true_iff in K as [_ K]. unfold right_side_out. destruct f.
    + apply andb_true_iff in K as [K _]. rewrite forallb_forall in K. specialize (K _ Ho). rewrite size_moved. lia.
    + exists (base nx ny (e / np)). destruct pieces as [|q [|? ?]]; try discriminate. destruct Ho as [<-|[]]. apply eqlb_ok in K. rewrite K. apply corners_moved.
  - pose proof Hpieces as K. unfold pieces_ok in K. apply andb_true_iff in K as [K _]. apply andb_true_iff in K as [K _]. apply andb_true_iff in K as [_ K]. rewrite layout_volume.
    assert (f = OMEGA_H_SIMPLEX \/ f = OMEGA_H_HYPERCUBE) as [Ef|Ef] by (destruct f; auto); rewrite Ef in K |- *.
    + exists layout_rows. split; [reflexivity|]. split.
      * intros r Hr. pose proof rows_deg as RD. rewrite Forall_forall in RD. rewrite (RD _ Hr). unfold deg. rewrite Ef. assert (dim = 1 \/ dim = 2 \/ dim = 3) as [->|[->| ->]] by lia; reflexivity.
      * apply andb_true_iff in K as [_ K]. apply Z.eqb_eq in K. unfold layout_rows. rewrite flat_map_concat_map, zsum_concat, map_map.
        rewrite (zsum_const _ (factorial dim * 2 ^ dim)); [rewrite zlen_zrange by (pose proof nc_pos; lia); ring|]. intros c Hc. apply in_zrange in Hc. rewrite map_map, <- K. unfold pieces. rewrite map_map. f_equal.
        apply map_ext_in. intros pr Hp. rewrite map_map. rewrite <- (size_moved dim (base nx ny c) (map off pr)), map_map. f_equal. apply map_ext_in. intros p Hpp. apply Hx; [exact Hc|]. apply in_concat. eauto.
    + pose proof (v_verts _ V dim ltac:(lia)) as (L & _). rewrite F, EV, ev2v_len in L. pose proof deg_positive as DP. unfold deg in *. 
      assert (np = 1) as N1. { unfold np. rewrite <- (zlen_map (map off) ps). fold pieces. destruct pieces as [|q [|? ?]]; try discriminate. reflexivity. } nia.
  - intros s row Hs HR. destruct (topo_side f dim ev2v nv T HT s row H1 Hs HR) as (e & w & HS & HZ).
    assert (pieces <> []) as Hne. { intros E. pose proof (zlen_map (map off) ps) as Z0. fold pieces in Z0. rewrite E in Z0. unfold np in Np. change (zlen (@nil (list point))) with 0 in Z0. lia. }
    assert (zlen pieces = np) as Enp by apply zlen_map.
    eapply (side_uses f dim pieces nx ny nz Hdim Hnx Hny Hnz Uy Uz Hne Htable ev2v place); try eassumption.
    + rewrite Enp. apply ev2v_len.
    + rewrite Enp. exact row_places.
    + intros v v' Hv Hv'. apply Hap; apply ev2v_in; assumption.
    + rewrite Enp. rewrite (topo_len f dim ev2v nv T HT). f_equal. pose proof (v_verts _ V dim ltac:(lia)) as (L & _). rewrite F, EV, ev2v_len in L. pose proof deg_positive as DP. unfold deg in *. nia.
    + intros e1 w1 e2 w2 r1 r2 s'. apply (topo_same f dim ev2v nv T HT).
    + intros e1 w1 e2 w2 r1 r2 s'. apply (topo_unique f dim ev2v nv T HT).
Qed.
End layout.

Lemma fills_box_ext n n' T place : 1 <= t_dim T <= 3 -> (forall a, 0 <= a < t_dim T -> n a = n' a) -> fills_box n T place -> fills_box n' T place.
Proof.
  intros HD He [A B C E S]. assert (volume (t_dim T) n = volume (t_dim T) n') as EV.
  { unfold volume. f_equal. apply map_ext_in. intros a Ha. apply in_zrange in Ha. apply He, Ha. }
  assert (forall pts, on_surface (t_dim T) n pts <-> on_surface (t_dim T) n' pts) as EO.
  { intros pts. unfold on_surface. split; intros (a & Ha & K); exists a; (split; [exact Ha|]); [rewrite <- He by exact Ha|rewrite He by exact Ha]; exact K. }
  constructor; try assumption.
  - intros v a Hv Ha. rewrite <- He by exact Ha. apply A; assumption.
  - rewrite <- EV. exact E.
  - intros s row Hs HR. rewrite <- EO. apply S; assumption.
Qed.
