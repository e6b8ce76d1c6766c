(** Picking and renumbering the entities of a mesh: the topology. *)
From Coq Require Import String.
From Verif Require Import Prelude M_Array M_Par M_Scan S_Sort M_Sort M_Map S_Map P_Map P_Map2 M_Template S_Template P_Template M_Align S_Align P_Align M_Unique S_Unique P_Unique M_Adj S_Adj P_Adj S_Transit P_Transit
  S_Match P_Match M_Tags M_MeshAdj S_MeshAdj P_MeshAdj2 P_MeshAdj3 M_Build S_Build P_Build P_Box M_Unmap S_Unmap.
Local Open Scope Z_scope.

(** ** Small facts *)
Lemma align_map {A B} (g : A -> B) n code (l l' : list A) : 2 <= n <= 4 -> zlen l = n -> align_adj n code l = Ok l' -> align_adj n code (map g l) = Ok (map g l').
Proof.
  intros Hn Hl. rewrite !align_act. pose proof (rot_range code) as Hr. generalize dependent (code_rotation code). intros r Hr. destruct (code_is_flipped code).
  all: polygon l Hl; rots r Hr; vm_compute; intros E; injection E as <-; reflexivity.
Qed.
Lemma vertex_on_side f d w : 1 <= d <= 3 -> 0 <= w < element_degree f d 0 -> exists u, 0 <= u < element_degree f d (d - 1) /\ In w (side_verts f d (d - 1) u).
Proof.
  intros Hd Hw. assert (forallb (fun f => forallb (fun d => forallb (fun w => existsb (fun u => existsb (Z.eqb w) (side_verts f d (d - 1) u)) (zrange (element_degree f d (d - 1)))) (zrange (element_degree f d 0))) [1; 2; 3]) families = true) as H by (vm_compute; reflexivity).
  rewrite forallb_forall in H. specialize (H f (in_families f)). rewrite forallb_forall in H. specialize (H d ltac:(cbn; lia)). rewrite forallb_forall in H. specialize (H w ltac:(apply in_zrange; lia)).
  apply existsb_exists in H as (u & Hu & H). apply in_zrange in Hu. apply existsb_exists in H as (x & Hx & E). apply Z.eqb_eq in E as ->. exists u. split; [lia|exact Hx].
Qed.
Lemma forwards_in {A} (l l' : list A) x : forwards l l' -> In x l -> In x l'.
Proof. intros (a & b & -> & ->) H. apply in_app_iff in H. apply in_app_iff. tauto. Qed.
Lemma polygon_in {A} (l l' : list A) x : same_polygon l l' -> In x l' -> In x l.
Proof. intros [(a & b & -> & ->)|(a & b & E & ->)] H; [apply in_app_iff in H; apply in_app_iff; tauto|]. apply in_rev. rewrite E. apply in_app_iff in H. apply in_app_iff. tauto. Qed.
Lemma In_zget {A} (l : list A) x : In x l -> exists i, zget l i = Ok x.
Proof. intros H. apply In_nth_error in H as (n & E). exists (Z.of_nat n). apply zget_nat, E. Qed.
Lemma In_row deg (l : list Z) n v : 0 < deg -> zlen l = n * deg -> In v l -> exists e row, row_is deg l e row /\ 0 <= e < n /\ In v row.
Proof.
  intros Hd Hl Hv. apply In_zget in Hv as (i & Ei). pose proof (zget_bounds _ _ _ Ei) as B. exists (i / deg), (tuple l deg (i / deg)). pose proof (Z.div_mod i deg ltac:(lia)). pose proof (Z.mod_pos_bound i deg Hd).
  assert (0 <= i / deg < n) as Q by (split; [apply Z.div_pos; lia|apply Z.div_lt_upper_bound; lia]). pose proof (row_is_tuple deg l n (i / deg) ltac:(lia) Hl Q) as R. split; [exact R|]. split; [exact Q|].
  apply (zget_In _ (i mod deg)). rewrite <- (row_zget deg l (i / deg) _ (i mod deg) R) by lia. replace (i / deg * deg + i mod deg) with i by lia. exact Ei.
Qed.

(** ** One array of rows, picked and renumbered *)
Section pick.
Context (T : topology) (HT : valid_topology T) (maps : Z -> list Z) (HP : picks T maps).
Local Notation F := (t_family T).
Local Notation D := (t_dim T).
Definition inv (d : Z) : list Z := match invert_injective_map (maps d) (t_nents T d) with Ok r => r | _ => [] end.
Lemma inv_ok d : 0 <= d <= D -> invert_injective_map (maps d) (t_nents T d) = Ok (inv d) /\ zlen (inv d) = t_nents T d /\ forall a b, zget (maps d) a = Ok b -> zget (inv d) b = Ok a.
Proof.
  intros Hd. destruct (proj1 HP d Hd) as [N B]. destruct (invert_injective_map_spec (maps d) (t_nents T d) (v_nents T HT d Hd) N B) as (r & E & L & R & _). unfold inv. rewrite E. auto.
Qed.
Lemma map_bound d e' e : 0 <= d <= D -> zget (maps d) e' = Ok e -> 0 <= e < t_nents T d.
Proof. intros Hd E. apply (proj1 HP d Hd), (zget_In _ _ _ E). Qed.

(** rows of entities of dimension [d], whose entries are entities of dimension [l] that are all kept *)
Lemma pick_rows d l deg ab : 0 <= d <= D -> 0 <= l <= D -> 0 <= deg -> zlen ab = t_nents T d * deg ->
  (forall e w s, In e (maps d) -> 0 <= w < deg -> zget ab (e * deg + w) = Ok s -> In s (maps l)) ->
  exists x y, unmap (maps d) ab deg = Ok x /\ compound_maps x (inv l) = Ok y /\ zlen y = zlen (maps d) * deg /\
    forall e' e w, zget (maps d) e' = Ok e -> 0 <= w < deg -> exists s s', zget ab (e * deg + w) = Ok s /\ zget y (e' * deg + w) = Ok s' /\ zget (maps l) s' = Ok s.
Proof.
  intros Hd Hl Hg HL HC. assert (maps_into (maps d) ab deg) as MI. { intros b Hb. apply (proj1 HP d Hd) in Hb. split; [lia|]. rewrite HL. nia. }
  destruct (unmap_spec (maps d) ab deg Hg MI) as (x & Ex & Lx & Rx). exists x. destruct (inv_ok l Hl) as (_ & Li & Ri).
  assert (forall b, In b x -> 0 <= b < zlen (inv l)) as Bx.
  { intros b Hb. apply In_zget in Hb as (i & Ei). pose proof (zget_bounds _ _ _ Ei) as B. rewrite Lx in B. assert (0 < deg) as Hg' by (destruct (Z.eq_dec deg 0) as [E0|E0]; [rewrite E0, Z.mul_0_r in B; lia|lia]). pose proof (Z.div_mod i deg ltac:(lia)). pose proof (Z.mod_pos_bound i deg Hg').
    assert (0 <= i / deg < zlen (maps d)) as Q by (split; [apply Z.div_pos; lia|apply Z.div_lt_upper_bound; lia]). destruct (zget_in_range (maps d) (i / deg) Q) as (e & Ee).
    pose proof (Rx (i / deg) e (i mod deg) Ee ltac:(lia)) as R. replace (i / deg * deg + i mod deg) with i in R by lia. rewrite Ei in R. symmetry in R. rewrite Li. apply (proj1 HP l Hl). eapply HC; [eapply zget_In; exact Ee| |exact R]. lia. }
  destruct (compound_maps_spec x (inv l) Bx) as (y & Ey & Ly & Ry). exists y. split; [exact Ex|]. split; [exact Ey|]. split; [lia|]. intros e' e w Ee Hw.
  pose proof (map_bound d e' e Hd Ee) as Be. destruct (zget_in_range ab (e * deg + w) ltac:(nia)) as (s & Es). destruct (In_zget (maps l) s (HC e w s (zget_In _ _ _ Ee) Hw Es)) as (s' & Es').
  exists s, s'. split; [exact Es|]. split; [|exact Es']. rewrite (Ry _ s); [apply Ri, Es'|]. rewrite (Rx e' e w Ee Hw). exact Es.
Qed.

(** the vertices of what is kept are kept *)
Lemma verts_kept : forall n d, d = Z.of_nat n -> 1 <= d <= D -> forall e w v, In e (maps d) -> 0 <= w < element_degree F d 0 -> zget (t_verts T d) (e * element_degree F d 0 + w) = Ok v -> In v (maps 0).
Proof.
  pose proof (v_dim T HT) as HD. induction n as [|n IH]; intros d En Hd e w v He Hw Ev; [lia|]. destruct (Z_lt_dec 1 d) as [Hd2|Hd2].
  - destruct (vertex_on_side F d w ltac:(lia) Hw) as (u & Hu & Iw). destruct (v_verts T HT d Hd) as (LV & _ & _). pose proof (proj2 (proj1 HP d ltac:(lia)) e He) as Be.
    pose proof (row_is_tuple (element_degree F d 0) (t_verts T d) (t_nents T d) e ltac:(lia) LV Be) as R. set (hrow := tuple (t_verts T d) (element_degree F d 0) e) in *.
    destruct (side_exists F d (d - 1) (t_verts T d) e u hrow ltac:(lia) ltac:(lia) R Hu) as (row & S). destruct (v_down T HT d ltac:(lia)) as (ab & codes & Ed & La & Lc & RF).
    destruct (RF e u row S) as (l & code & lrow & El & Ec & Rl & Al & _). assert (In l (maps (d - 1))) as Il. { apply (proj2 HP d e u l Hd He Hu). rewrite Ed. exact El. }
    assert (In v row) as Iv. { destruct S as (hr & R' & _ & F2). rewrite (row_is_unique _ _ _ _ _ R' R) in F2. rewrite (row_zget _ _ _ _ _ R Hw) in Ev. clear - F2 Iw Ev. induction F2 as [|a b la lb H _ IH]; [destruct Iw|]. destruct Iw as [->|Iw]; [left; congruence|right; auto]. }
    pose proof (low_degree F (d - 1) ltac:(lia)) as LD. pose proof (polygon_spec _ _ _ _ LD (proj1 Rl) Al) as SP. apply (polygon_in _ _ _ SP) in Iv. apply In_zget in Iv as (j & Ej). pose proof (zget_bounds _ _ _ Ej) as Bj. rewrite (proj1 Rl) in Bj.
    apply (IH (d - 1) ltac:(lia) ltac:(lia) l j v Il Bj). rewrite (row_zget _ _ _ _ _ Rl Bj). exact Ej.
  - assert (d = 1) as -> by lia. apply (proj2 HP 1 e w v Hd He Hw). rewrite (v_edges T HT). exact Ev.
Qed.

(** ** The picked topology *)
Definition verts' (d : Z) : list Z := match (x <- unmap (maps d) (t_verts T d) (element_degree F d 0) ;; compound_maps x (inv 0)) with Ok y => y | _ => [] end.
Definition down' (d : Z) : adj := match unmap_adj (maps d) (t_down T d) (element_degree F d (d - 1)) (inv (d - 1)) with Ok a => a | _ => mk_adj [] [] None end.
Definition T' : topology := mk_topology F D (fun d => zlen (maps d)) verts' down'.

Lemma verts_ok d : 1 <= d <= D -> zlen (verts' d) = zlen (maps d) * element_degree F d 0 /\
  forall e' e w, zget (maps d) e' = Ok e -> 0 <= w < element_degree F d 0 -> exists v v', zget (t_verts T d) (e * element_degree F d 0 + w) = Ok v /\ zget (verts' d) (e' * element_degree F d 0 + w) = Ok v' /\ zget (maps 0) v' = Ok v.
Proof.
  intros Hd. pose proof (v_dim T HT) as HD. destruct (v_verts T HT d Hd) as (LV & _). pose proof (degree_pos F d 0 ltac:(lia) ltac:(lia)) as P.
  destruct (pick_rows d 0 (element_degree F d 0) (t_verts T d) ltac:(lia) ltac:(lia) ltac:(lia) LV) as (x & y & Ex & Ey & Ly & Ry). { intros e w s He Hw Es. apply (verts_kept (Z.to_nat d) d ltac:(lia) Hd e w s He Hw Es). }
  unfold verts'. rewrite Ex. cbn [bind]. rewrite Ey. auto.
Qed.
Lemma down_ok d : 1 <= d <= D -> exists ab codes, t_down T d = mk_adj [] ab codes /\ exists ab' codes', unmap_adj (maps d) (t_down T d) (element_degree F d (d - 1)) (inv (d - 1)) = Ok (down' d) /\ down' d = mk_adj [] ab' codes' /\
  zlen ab' = zlen (maps d) * element_degree F d (d - 1) /\
  (forall e' e w, zget (maps d) e' = Ok e -> 0 <= w < element_degree F d (d - 1) -> exists s s', zget ab (e * element_degree F d (d - 1) + w) = Ok s /\ zget ab' (e' * element_degree F d (d - 1) + w) = Ok s' /\ zget (maps (d - 1)) s' = Ok s) /\
  (d = 1 -> codes = None /\ codes' = None) /\
  (2 <= d -> exists cs cs', codes = Some cs /\ codes' = Some cs' /\ zlen cs' = zlen ab' /\
     forall e' e w, zget (maps d) e' = Ok e -> 0 <= w < element_degree F d (d - 1) -> zget cs' (e' * element_degree F d (d - 1) + w) = zget cs (e * element_degree F d (d - 1) + w)).
Proof.
  intros Hd. pose proof (v_dim T HT) as HD. pose proof (degree_pos F d (d - 1) ltac:(lia) ltac:(lia)) as P. unfold down', unmap_adj. destruct (Z_lt_dec 1 d) as [Hd2|Hd2].
  - destruct (v_down T HT d ltac:(lia)) as (ab & codes & Ed & La & Lc & _). exists ab, (Some codes). split; [exact Ed|]. rewrite Ed. cbn [adj_ab2b adj_codes].
    destruct (pick_rows d (d - 1) (element_degree F d (d - 1)) ab ltac:(lia) ltac:(lia) ltac:(lia) La) as (x & y & Ex & Ey & Ly & Ry). { intros e w s He Hw Es. apply (proj2 HP d e w s Hd He Hw). rewrite Ed. exact Es. }
    rewrite Ex. cbn [bind]. rewrite Ey. cbn [bind]. assert (maps_into (maps d) codes (element_degree F d (d - 1))) as MI. { intros b Hb. apply (proj1 HP d ltac:(lia)) in Hb. split; [lia|]. rewrite Lc, La. apply Z.mul_le_mono_nonneg_r; lia. }
    destruct (unmap_spec (maps d) codes (element_degree F d (d - 1)) ltac:(lia) MI) as (z & Ez & Lz & Rz). rewrite Ez. cbn [bind]. exists y, (Some z). split; [reflexivity|]. split; [reflexivity|]. split; [exact Ly|]. split; [exact Ry|]. split; [lia|].
    intros _. exists codes, z. split; [reflexivity|]. split; [reflexivity|]. split; [congruence|]. exact Rz.
  - assert (d = 1) as -> by lia. rewrite (v_edges T HT). exists (t_verts T 1), None. split; [reflexivity|]. cbn [adj_ab2b adj_codes]. destruct (v_verts T HT 1 Hd) as (LV & _).
    destruct (pick_rows 1 (1 - 1) (element_degree F 1 (1 - 1)) (t_verts T 1) ltac:(lia) ltac:(lia) ltac:(lia) LV) as (x & y & Ex & Ey & Ly & Ry). { intros e w s He Hw Es. apply (proj2 HP 1 e w s Hd He Hw). rewrite (v_edges T HT). exact Es. }
    rewrite Ex. cbn [bind]. rewrite Ey. cbn [bind]. exists y, None. split; [reflexivity|]. split; [reflexivity|]. split; [exact Ly|]. split; [exact Ry|]. split; [auto|lia].
Qed.

Lemma picked_listed : listed T maps T'.
Proof.
  split; [reflexivity|]. split; [reflexivity|]. split; [reflexivity|]. intros d e' e Hd Ee. split; [intros deg w Hw; exact (proj2 (verts_ok d Hd) e' e w Ee Hw)|]. intros deg w Hw.
  destruct (down_ok d Hd) as (ab & codes & Ed & ab' & codes' & _ & Ed' & L' & R & _ & C). cbn [T' t_down]. rewrite Ed, Ed'. cbn [adj_ab2b adj_codes]. split; [exact (R e' e w Ee Hw)|].
  intros H2. destruct (C H2) as (cs & cs' & -> & -> & Lc & Rc). exists cs, cs'. destruct (zget_in_range cs' (e' * deg + w)) as (code & Ec). { rewrite Lc, L'. pose proof (zget_bounds _ _ _ Ee). fold deg. nia. }
  exists code. split; [reflexivity|]. split; [reflexivity|]. split; [|exact Ec]. etransitivity; [symmetry; exact (Rc e' e w Ee Hw)|exact Ec].
Qed.
End pick.

(** ** What has the listed entities is a mesh *)
Section listing.
Context (T : topology) (HT : valid_topology T) (maps : Z -> list Z) (HP : picks T maps) (U : topology) (HL : listed T maps U).
Local Notation F := (t_family T).
Local Notation D := (t_dim T).
Definition new (v : Z) : Z := match zget (inv T maps 0) v with Ok x => x | _ => -1 end.
Lemma new_of v' v : zget (maps 0) v' = Ok v -> new v = v'.
Proof. intros E. unfold new. pose proof (v_dim T HT). destruct (inv_ok T HT maps HP 0 ltac:(lia)) as (_ & _ & R). rewrite (R v' v E). reflexivity. Qed.

Lemma row_listed d e' e row : 1 <= d <= D -> zget (maps d) e' = Ok e -> row_is (element_degree F d 0) (t_verts T d) e row ->
  row_is (element_degree F d 0) (t_verts U d) e' (map new row) /\ forall v, In v row -> zget (maps 0) (new v) = Ok v.
Proof.
  intros Hd Ee R. destruct HL as (_ & _ & _ & H). destruct (H d e' e Hd Ee) as [HV _]. cbv zeta in HV. split.
  - split; [rewrite zlen_map; apply R|]. intros j Hj. destruct (HV j Hj) as (v & v' & E & E' & Em). exists v'. split; [exact E'|]. rewrite zget_map. rewrite <- (row_zget _ _ _ _ _ R Hj), E. cbn [bind]. rewrite (new_of v' v Em). reflexivity.
  - intros v Iv. apply In_zget in Iv as (j & Ej). pose proof (zget_bounds _ _ _ Ej) as B. rewrite (proj1 R) in B. destruct (HV j B) as (v0 & v' & E & E' & Em). rewrite (row_zget _ _ _ _ _ R B), Ej in E. injection E as <-. rewrite (new_of v' v Em). exact Em.
Qed.
Hypothesis ULen : forall d, 1 <= d <= D -> zlen (t_verts U d) = t_nents U d * element_degree F d 0.
Lemma row_back d e' row' : 1 <= d <= D -> row_is (element_degree F d 0) (t_verts U d) e' row' ->
  exists e row, zget (maps d) e' = Ok e /\ row_is (element_degree F d 0) (t_verts T d) e row /\ row' = map new row /\ forall v, In v row -> zget (maps 0) (new v) = Ok v.
Proof.
  intros Hd R'. pose proof (v_dim T HT) as HD. pose proof (degree_pos F d 0 ltac:(lia) ltac:(lia)) as P. destruct HL as (_ & _ & HN & _).
  pose proof (row_is_range _ _ _ _ _ P (ULen d Hd) R') as B. rewrite (HN d ltac:(lia)) in B. destruct (zget_in_range (maps d) e' B) as (e & Ee). exists e, (tuple (t_verts T d) (element_degree F d 0) e).
  pose proof (map_bound T maps HP d e' e ltac:(lia) Ee) as Be. destruct (v_verts T HT d Hd) as (LV & _).
  pose proof (row_is_tuple (element_degree F d 0) (t_verts T d) (t_nents T d) e ltac:(lia) LV Be) as R. split; [exact Ee|]. split; [exact R|]. destruct (row_listed d e' e _ Hd Ee R) as [R2 N]. split; [exact (row_is_unique _ _ _ _ _ R' R2)|exact N].
Qed.
Lemma new_inj l : (forall v, In v l -> zget (maps 0) (new v) = Ok v) -> NoDup l -> NoDup (map new l).
Proof.
  intros H N. induction N as [|x l Nx N IH]; [constructor|]. cbn [map]. constructor; [|apply IH; intros v Hv; apply H; right; exact Hv]. intros I. apply in_map_iff in I as (y & Ey & Iy).
  pose proof (H x (or_introl eq_refl)) as E1. pose proof (H y (or_intror Iy)) as E2. rewrite Ey, E1 in E2. injection E2 as ->. contradiction.
Qed.
Lemma side_back d u l h' row' : 0 <= l < d -> 1 <= d <= D -> is_side F d l (t_verts U d) h' u row' ->
  exists h row, zget (maps d) h' = Ok h /\ is_side F d l (t_verts T d) h u row /\ row' = map new row /\ forall v, In v row -> zget (maps 0) (new v) = Ok v.
Proof.
  intros Hl Hd (hrow' & R' & Hu & F2). destruct (row_back d h' hrow' Hd R') as (h & hrow & Eh & R & -> & N). exists h.
  assert (exists row, Forall2 (fun v x => zget hrow v = Ok x) (side_verts F d l u) row /\ row' = map new row /\ forall v, In v row -> In v hrow) as (row & F3 & E & I).
  { clear - F2. induction F2 as [|v x vs xs Hx _ IH]; [exists []; split; [constructor|]; split; [reflexivity|]; intros ? []|]. destruct IH as (row & G & -> & I). rewrite zget_map in Hx. apply bind_ok in Hx as (y & Ey & Hx). injection Hx as <-.
    exists (y :: row). split; [constructor; assumption|]. split; [reflexivity|]. intros z [<-|Hz]; [eapply zget_In; exact Ey|auto]. }
  exists row. split; [exact Eh|]. split; [exists hrow; auto|]. split; [exact E|]. intros v Hv. apply N, I, Hv.
Qed.
Lemma side_forth d u l h' h row : 0 <= l < d -> 1 <= d <= D -> zget (maps d) h' = Ok h -> is_side F d l (t_verts T d) h u row ->
  is_side F d l (t_verts U d) h' u (map new row) /\ forall v, In v row -> zget (maps 0) (new v) = Ok v.
Proof.
  intros Hl Hd Eh (hrow & R & Hu & F2). destruct (row_listed d h' h hrow Hd Eh R) as [R' N]. split.
  - exists (map new hrow). split; [exact R'|]. split; [exact Hu|]. clear - F2. induction F2 as [|v x vs xs Hx _ IH]; [constructor|]. cbn [map]. constructor; [|exact IH]. rewrite zget_map, Hx. reflexivity.
  - intros v Hv. apply N. clear - F2 Hv. induction F2 as [|a x vs xs Hx _ IH]; [destruct Hv|]. destruct Hv as [->|Hv]; [eapply zget_In; exact Hx|auto].
Qed.
Lemma reflects_listed d ab codes ab' codes' : 2 <= d <= D -> t_down T d = mk_adj [] ab (Some codes) -> t_down U d = mk_adj [] ab' (Some codes') ->
  reflects F d (d - 1) (t_verts T d) (t_verts T (d - 1)) ab codes -> reflects F d (d - 1) (t_verts U d) (t_verts U (d - 1)) ab' codes'.
Proof.
  intros Hd Ed Ed' RF h' u row' S'. destruct (side_back d u (d - 1) h' row' ltac:(lia) ltac:(lia) S') as (h & row & Eh & S & -> & N). destruct (RF h u row S) as (l & code & lrow & El & Ec & Rl & Al & Hr).
  pose proof S as (_ & _ & Hu & _). destruct HL as (_ & _ & _ & H). destruct (H d h' h ltac:(lia) Eh) as [_ HS]. cbv zeta in HS. destruct (HS u Hu) as [(s & s' & E & E' & Em) HC]. rewrite Ed in E. rewrite Ed' in E'. cbn [adj_ab2b] in E, E'.
  rewrite El in E. injection E as <-. destruct (HC ltac:(lia)) as (cs & cs' & code0 & Q1 & Q2 & Q3 & Q4). rewrite Ed in Q1. rewrite Ed' in Q2. cbn [adj_codes] in Q1, Q2. injection Q1 as <-. injection Q2 as <-. rewrite Ec in Q3. injection Q3 as <-.
  exists s', code, (map new lrow). split; [exact E'|]. split; [exact Q4|]. split; [exact (proj1 (row_listed (d - 1) s' l lrow ltac:(lia) Em Rl))|]. split; [|exact Hr].
  apply align_map; [apply low_degree; pose proof (v_dim T HT); lia|apply Rl|exact Al].
Qed.
End listing.

Lemma picked_valid T maps : valid_topology T -> picks T maps -> valid_topology (T' T maps).
Proof.
  intros HT HP. pose proof (v_dim T HT) as HD. pose proof (picked_listed T HT maps HP) as HL.
  assert (forall d, 1 <= d <= t_dim T -> zlen (t_verts (T' T maps) d) = t_nents (T' T maps) d * element_degree (t_family T) d 0) as UL by (intros d Hd; exact (proj1 (verts_ok T HT maps HP d Hd))).
  split.
  - exact HD.
  - intros d _. apply zlen_nonneg.
  - intros d Hd. change (1 <= d <= t_dim T) in Hd. split; [exact (UL d Hd)|]. split.
    + intros e' row' R'. destruct (row_back T HT maps HP (T' T maps) HL UL d e' row' Hd R') as (e & row & _ & R & -> & N). apply (new_inj T maps row N). destruct (v_verts T HT d Hd) as (_ & RD & _). exact (RD e row R).
    + intros v Hv. pose proof (degree_pos (t_family T) d 0 ltac:(cbn in Hd; lia) ltac:(lia)) as P. destruct (In_row _ _ _ v P (UL d Hd) Hv) as (e' & row' & R' & _ & I). destruct (row_back T HT maps HP (T' T maps) HL UL d e' row' Hd R') as (e & row & _ & R & -> & N).
      apply in_map_iff in I as (x & <- & Hx). exact (zget_bounds _ _ _ (N x Hx)).
  - cbn [t_down T' t_verts]. destruct (down_ok T HT maps HP 1 ltac:(lia)) as (ab & codes & Ed & ab' & codes' & Eu & Ed' & _). unfold down', verts', unmap_adj in *. rewrite (v_edges T HT) in *. cbn [adj_ab2b adj_codes] in *.
    change (1 - 1) with 0 in *. destruct (unmap (maps 1) (t_verts T 1) (element_degree (t_family T) 1 0)) as [x| |]; cbn [bind] in *; try discriminate. destruct (compound_maps x (inv T maps 0)) as [y| |]; cbn [bind] in *; try discriminate. reflexivity.
  - intros d Hd. change (t_dim (T' T maps)) with (t_dim T) in Hd. destruct (down_ok T HT maps HP d ltac:(lia)) as (ab & codes & Ed & ab' & codes' & _ & Ed' & L' & _ & _ & C). destruct (C ltac:(lia)) as (cs & cs' & -> & -> & Lc & _).
    exists ab', cs'. split; [exact Ed'|]. split; [exact L'|]. split; [exact Lc|]. destruct (v_down T HT d ltac:(lia)) as (ab0 & codes0 & Ed0 & _ & _ & RF). rewrite Ed in Ed0. injection Ed0 as <- <-.
    exact (reflects_listed T HT maps HP (T' T maps) HL UL d ab cs ab' cs' Hd Ed Ed' RF).
Qed.
