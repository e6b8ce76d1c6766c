(** A mesh whose entities are listed in another order is the same mesh. *)
From Coq Require Import String Permutation.
From Verif Require Import Prelude M_Array M_Par S_Scan P_Scan S_Sort M_Sort P_Sort M_Map S_Map P_Map P_Map2 M_Template S_Template P_Template M_Align S_Align P_Align M_Unique S_Unique P_Unique M_Adj S_Adj P_Adj S_Transit P_Transit
  S_Match P_Match S_Simplify M_Tags M_MeshAdj S_MeshAdj P_MeshAdj2 P_MeshAdj3 M_Build S_Build P_Build M_Box S_Box P_Fill P_Box P_Box3 S_BoxClass M_Unmap S_Unmap P_Unmap.
Local Open Scope Z_scope.

Lemma reorders_picks T maps : valid_topology T -> reorders T maps -> picks T maps.
Proof.
  intros HT H. pose proof (v_dim T HT) as HD. assert (forall d, 0 <= d <= t_dim T -> NoDup (maps d) /\ forall e, In e (maps d) <-> 0 <= e < t_nents T d) as K.
  { intros d Hd. destruct (H d Hd) as [L P]. unfold is_perm in P. split; [eapply Permutation_NoDup; [symmetry; exact P|apply zrange_NoDup]|]. intros e. rewrite <- L, <- in_zrange. split; intros I; [eapply Permutation_in; [exact P|exact I]|eapply Permutation_in; [symmetry; exact P|exact I]]. }
  split; [intros d Hd; destruct (K d Hd) as [N B]; split; [exact N|intros e; apply B]|]. intros d e w s Hd He Hw Es. apply (K (d - 1) ltac:(lia)). apply (K d ltac:(lia)) in He. destruct (Z.eq_dec d 1) as [->|Ne].
  - rewrite (v_edges T HT) in Es. cbn [adj_ab2b] in Es. destruct (v_verts T HT 1 Hd) as (_ & _ & B). exact (B s (zget_In _ _ _ Es)).
  - destruct (v_down T HT d ltac:(lia)) as (ab & codes & Ed & La & Lc & RF). rewrite Ed in Es. cbn [adj_ab2b] in Es. destruct (v_verts T HT d Hd) as (LV & _).
    pose proof (degree_pos (t_family T) d 0 ltac:(lia) ltac:(lia)) as P0. pose proof (row_is_tuple (element_degree (t_family T) d 0) (t_verts T d) (t_nents T d) e ltac:(lia) LV He) as R.
    destruct (side_exists (t_family T) d (d - 1) (t_verts T d) e w _ ltac:(lia) ltac:(lia) R Hw) as (row & S). destruct (RF e w row S) as (l & code & lrow & El & _ & Rl & _). rewrite Es in El. injection El as <-.
    destruct (v_verts T HT (d - 1) ltac:(lia)) as (LV' & _). eapply row_is_range; [|exact LV'|exact Rl]. apply degree_pos; lia.
Qed.

Lemma map_same_polygon {A B} (g : A -> B) l l' : same_polygon l l' -> same_polygon (map g l) (map g l').
Proof.
  intros [(a & b & -> & ->)|(a & b & E & ->)]; [left|right]; exists (map g a), (map g b); rewrite ?map_app; (split; [|reflexivity]); [reflexivity|]. rewrite <- map_rev, E, map_app. reflexivity.
Qed.

(** rows of a permuted list *)
Lemma tuples_concat {A} (l : list A) deg n : 0 <= deg -> 0 <= n -> zlen l = n * deg -> concat (map (tuple l deg) (zrange n)) = l.
Proof.
  intros Hd Hn Hl. assert (forall e, In e (zrange n) -> zlen (tuple l deg e) = deg) as TL by (intros e He; apply in_zrange in He; apply tuple_length with n; assumption).
  assert (Forall (fun r => zlen r = deg) (map (tuple l deg) (zrange n))) as F by (apply Forall_forall; intros r Hr; apply in_map_iff in Hr as (e & <- & He); apply TL, He).
  apply list_eq_zget; [rewrite (zlen_concat deg) by exact F; rewrite zlen_map, zlen_zrange by lia; lia|]. intros i Hi. rewrite (zlen_concat deg) in Hi by exact F. rewrite zlen_map, zlen_zrange in Hi by lia.
  destruct (Z.eq_dec deg 0) as [->|Ne]; [lia|]. pose proof (Z.div_mod i deg ltac:(lia)) as DM. pose proof (Z.mod_pos_bound i deg ltac:(lia)) as MB. assert (0 <= i / deg < n) as Q by (split; [apply Z.div_pos; lia|apply Z.div_lt_upper_bound; lia]).
  replace i with (i / deg * deg + i mod deg) by lia. rewrite (zget_concat deg (map (tuple l deg) (zrange n)) F (i / deg) (tuple l deg (i / deg)) (i mod deg)); [rewrite tuple_get by lia; reflexivity| |lia].
  rewrite zget_map, zget_zrange by lia. reflexivity.
Qed.
Lemma rows_are_tuples {A} (rows : list (list A)) deg l : 0 < deg -> concat rows = l -> (forall r, In r rows -> zlen r = deg) -> rows = map (tuple l deg) (zrange (zlen rows)).
Proof.
  intros Hd <- HR. assert (Forall (fun r => zlen r = deg) rows) as F by (apply Forall_forall; exact HR). pose proof (zlen_nonneg rows) as N. apply list_eq_zget; [rewrite zlen_map, zlen_zrange by lia; reflexivity|]. intros e He.
  rewrite zget_map, zget_zrange by lia. cbn [bind]. destruct (zget_in_range rows e He) as (r & Er). rewrite Er. f_equal. eapply row_is_eq with (n := zlen rows); [exact Hd|apply zlen_concat, F|apply row_of_concat; [exact F|exact Er]].
Qed.
Lemma concat_perm {A} (l m : list (list A)) : Permutation l m -> Permutation (concat l) (concat m).
Proof. induction 1 as [|x l m _ IH|x y l|l m k _ IH1 _ IH2]; cbn [concat]; [constructor|apply Permutation_app_head, IH|rewrite !app_assoc; apply Permutation_app_tail, Permutation_app_comm|etransitivity; eassumption]. Qed.
Lemma count_perm l m s : Permutation l m -> zlen (filter (Z.eqb s) l) = zlen (filter (Z.eqb s) m).
Proof. unfold zlen. induction 1 as [|x l m _ IH|x y l|l m k _ IH1 _ IH2]; cbn [filter]; [reflexivity| | |congruence]; [destruct (s =? x); cbn [length]; lia|]. destruct (s =? x), (s =? y); reflexivity. Qed.
Lemma uses_count l s : zlen (uses_of l s) = zlen (filter (Z.eqb s) l).
Proof.
  unfold uses_of, zlen. f_equal. induction l as [|x l IH] using rev_ind; [reflexivity|]. replace (Z.of_nat (length (l ++ [x]))) with (Z.of_nat (length l) + 1) by (rewrite app_length; cbn; lia).
  rewrite zrange_succ by lia. rewrite !filter_app, !app_length, <- IH. f_equal.
  - f_equal. apply filter_ext_in. intros i Hi. apply in_zrange in Hi. rewrite zget_app_l by (unfold zlen; lia). reflexivity.
  - cbn [filter]. rewrite zget_app_r by (unfold zlen; lia). unfold zlen. replace (Z.of_nat (length l) - Z.of_nat (length l)) with 0 by lia. change (zget [x] 0) with (Ok x). rewrite (Z.eqb_sym s x). destruct (x =? s); reflexivity.
Qed.

Section renumber.
Context (T : topology) (HT : valid_topology T) (maps : Z -> list Z) (HR : reorders T maps) (U : topology) (HU : valid_topology U) (HL : listed T maps U).
Local Notation F := (t_family T).
Local Notation D := (t_dim T).
Local Notation nw := (new T maps).
Let HP : picks T maps := reorders_picks T maps HT HR.
Definition old (d v' : Z) : Z := match zget (maps d) v' with Ok v => v | _ => v' end.
Lemma old_ok d e' : 0 <= d <= D -> 0 <= e' < t_nents U d -> zget (maps d) e' = Ok (old d e') /\ 0 <= old d e' < t_nents T d.
Proof.
  intros Hd He. destruct HL as (_ & _ & HN & _). rewrite (HN d Hd) in He. destruct (zget_in_range (maps d) e' He) as (e & Ee). unfold old. rewrite Ee. split; [reflexivity|]. eapply (map_bound T maps HP); eassumption.
Qed.
Lemma same_nents d : 0 <= d <= D -> t_nents U d = t_nents T d.
Proof. intros Hd. destruct HL as (_ & _ & HN & _). rewrite (HN d Hd). apply HR, Hd. Qed.
Lemma at_new d e : 0 <= d <= D -> 0 <= e < t_nents T d -> exists e', zget (maps d) e' = Ok e.
Proof. intros Hd He. apply In_zget. destruct (HR d Hd) as [L P]. eapply Permutation_in; [symmetry; exact P|]. apply in_zrange. lia. Qed.
Lemma map_inj d a b e : 0 <= d <= D -> zget (maps d) a = Ok e -> zget (maps d) b = Ok e -> a = b.
Proof.
  intros Hd Ea Eb. destruct (proj1 HP d Hd) as [N _]. apply zget_ok in Ea as [B1 Ea]. apply zget_ok in Eb as [B2 Eb]. apply Z2Nat.inj; [lia|lia|]. eapply NoDup_nth_error; [exact N| |congruence].
  apply nth_error_Some. rewrite Ea. discriminate.
Qed.
Let UL : forall d, 1 <= d <= D -> zlen (t_verts U d) = t_nents U d * element_degree F d 0.
Proof. intros d Hd. pose proof HL as (EF & ED & _). rewrite <- EF. apply (v_verts U HU). rewrite ED. exact Hd. Qed.
Lemma old_new row : (forall v, In v row -> zget (maps 0) (nw v) = Ok v) -> map (old 0) (map nw row) = row.
Proof. intros H. rewrite map_map. rewrite <- (map_id row) at 2. apply map_ext_in. intros v Hv. unfold old. rewrite (H v Hv). reflexivity. Qed.

Lemma sides_renumbered d : 1 <= d < D -> sides_once F D d (t_verts T D) (t_verts T d) -> sides_once F D d (t_verts U D) (t_verts U d).
Proof.
  intros Hd [S1 S2]. pose proof (v_dim T HT) as HD. split.
  - intros e' row' R'. destruct (row_back T HT maps HP U HL UL d e' row' ltac:(lia) R') as (e & row & Ee & R & -> & N). destruct (S1 e row R) as (h & u & S).
    pose proof S as (hrow & Rh & _). destruct (v_verts T HT D ltac:(lia)) as (LV & _). pose proof (row_is_range _ _ _ _ _ (degree_pos F D 0 ltac:(lia) ltac:(lia)) LV Rh) as Bh.
    destruct (at_new D h ltac:(lia) Bh) as (h' & Eh). exists h', u. exact (proj1 (side_forth T HT maps HP U HL D u d h' h row ltac:(lia) ltac:(lia) Eh S)).
  - intros h' u row' S'. destruct (side_back T HT maps HP U HL UL D u d h' row' ltac:(lia) ltac:(lia) S') as (h & row & Eh & S & -> & N). destruct (S2 h u row S) as (e & (rb & Rb & Pb) & UE).
    destruct (v_verts T HT d ltac:(lia)) as (LV & _). pose proof (row_is_range _ _ _ _ _ (degree_pos F d 0 ltac:(lia) ltac:(lia)) LV Rb) as Be. destruct (at_new d e ltac:(lia) Be) as (e' & Ee). exists e'. split.
    + exists (map nw rb). split; [exact (proj1 (row_listed T HT maps HP U HL d e' e rb ltac:(lia) Ee Rb))|]. apply map_same_polygon, Pb.
    + intros e2' (rb2' & R2' & P2'). destruct (row_back T HT maps HP U HL UL d e2' rb2' ltac:(lia) R2') as (e2 & rb2 & Ee2 & R2 & -> & N2). apply (map_same_polygon (old 0)) in P2'. rewrite (old_new rb2 N2), (old_new row N) in P2'.
      assert (e2 = e) as -> by (apply UE; exists rb2; auto). exact (map_inj d e2' e' e ltac:(lia) Ee2 Ee).
Qed.
Lemma topology_renumbered f dim ev2v nv : topology_of f dim ev2v nv T -> topology_of f dim (t_verts U dim) nv U.
Proof.
  intros (_ & E1 & E2 & E3 & E4 & E5). pose proof HL as (F1 & F2 & _). pose proof (v_dim T HT) as HD. split; [exact HU|]. split; [congruence|]. split; [congruence|]. split; [rewrite same_nents by lia; exact E3|]. split; [reflexivity|].
  intros d Hd. subst f dim. apply sides_renumbered; [exact Hd|]. rewrite E4. apply E5, Hd.
Qed.

(** the entries of the rows, as old numbers *)
Lemma rows_renumbered d l deg ab ab' : 0 <= d <= D -> 0 <= deg -> zlen ab = t_nents T d * deg -> zlen ab' = t_nents U d * deg ->
  (forall e' e w, zget (maps d) e' = Ok e -> 0 <= w < deg -> exists s s', zget ab (e * deg + w) = Ok s /\ zget ab' (e' * deg + w) = Ok s' /\ zget (maps l) s' = Ok s) ->
  map (fun e' => map (old l) (tuple ab' deg e')) (zrange (t_nents U d)) = map (tuple ab deg) (maps d).
Proof.
  intros Hd Hg L L' H. pose proof (v_nents U HU d ltac:(rewrite (proj1 (proj2 HL)); exact Hd)) as N0. destruct HL as (_ & _ & HN & _). apply list_eq_zget; [rewrite !zlen_map, zlen_zrange by lia; apply HN, Hd|]. intros e' He. rewrite zlen_map, zlen_zrange in He by lia. rewrite !zget_map, zget_zrange by lia. cbn [bind].
  destruct (old_ok d e' Hd He) as [Ee Be]. rewrite Ee. cbn [bind]. f_equal. set (e := old d e') in *. apply list_eq_zget; [rewrite zlen_map, (tuple_length ab' (t_nents U d) deg e'), (tuple_length ab (t_nents T d) deg e) by (assumption || lia); reflexivity|].
  intros j Hj. rewrite zlen_map, (tuple_length ab' (t_nents U d) deg e') in Hj by (assumption || lia). rewrite zget_map, !tuple_get by lia. destruct (H e' e j Ee Hj) as (s & s' & -> & -> & E). cbn [bind]. f_equal. unfold old. rewrite E. reflexivity.
Qed.
Lemma entries_perm d l deg ab ab' : 0 <= d <= D -> 0 <= deg -> zlen ab = t_nents T d * deg -> zlen ab' = t_nents U d * deg ->
  (forall e' e w, zget (maps d) e' = Ok e -> 0 <= w < deg -> exists s s', zget ab (e * deg + w) = Ok s /\ zget ab' (e' * deg + w) = Ok s' /\ zget (maps l) s' = Ok s) ->
  Permutation (map (old l) ab') ab.
Proof.
  intros Hd Hg L L' H. pose proof (v_nents T HT d Hd) as N0. pose proof (same_nents d Hd) as SN. rewrite <- (tuples_concat ab' deg (t_nents U d)) by (assumption || lia). rewrite <- (tuples_concat ab deg (t_nents T d)) by (assumption || lia).
  rewrite concat_map, map_map, (rows_renumbered d l deg ab ab' Hd Hg L L' H). apply concat_perm, Permutation_map. destruct (HR d Hd) as [E P]. unfold is_perm in P. rewrite E in P. exact P.
Qed.
Lemma uses_renumbered d deg ab ab' s' s : 1 <= d <= D -> 0 <= deg -> zlen ab = t_nents T d * deg -> zlen ab' = t_nents U d * deg ->
  (forall e' e w, zget (maps d) e' = Ok e -> 0 <= w < deg -> exists s s', zget ab (e * deg + w) = Ok s /\ zget ab' (e' * deg + w) = Ok s' /\ zget (maps (d - 1)) s' = Ok s) ->
  zget (maps (d - 1)) s' = Ok s -> zlen (uses_of ab' s') = zlen (uses_of ab s).
Proof.
  intros Hd Hg L L' H Es. rewrite !uses_count. rewrite <- (count_perm _ _ s (entries_perm d (d - 1) deg ab ab' ltac:(lia) Hg L L' H)). unfold zlen. f_equal.
  assert (forall x, In x ab' -> exists y, zget (maps (d - 1)) x = Ok y) as K.
  { intros x Hx. apply In_zget in Hx as (i & Ei). pose proof (zget_bounds _ _ _ Ei) as B. rewrite L' in B. assert (0 < deg) as Hg' by (destruct (Z.eq_dec deg 0) as [E0|E0]; [rewrite E0, Z.mul_0_r in B; lia|lia]). pose proof (Z.div_mod i deg ltac:(lia)). pose proof (Z.mod_pos_bound i deg Hg').
    assert (0 <= i / deg < t_nents U d) as Q by (split; [apply Z.div_pos; lia|apply Z.div_lt_upper_bound; lia]). destruct (old_ok d (i / deg) ltac:(lia) Q) as [Ee _]. destruct (H _ _ (i mod deg) Ee ltac:(lia)) as (y & x' & _ & Ex & Ey). replace (i / deg * deg + i mod deg) with i in Ex by lia.
    rewrite Ei in Ex. injection Ex as <-. eauto. }
  assert (forall l, (forall x, In x l -> exists y, zget (maps (d - 1)) x = Ok y) -> length (filter (Z.eqb s') l) = length (filter (Z.eqb s) (map (old (d - 1)) l))) as G.
  { intros l. induction l as [|x l IH]; [reflexivity|]. intros Kl. cbn [map filter]. destruct (Kl x (or_introl eq_refl)) as (y & Ey). assert (old (d - 1) x = y) as -> by (unfold old; rewrite Ey; reflexivity).
    assert ((s' =? x) = (s =? y)) as ->. { destruct (Z.eqb_spec s' x) as [->|Ne]; destruct (Z.eqb_spec s y) as [->|Ne']; try reflexivity; [congruence|]. exfalso. apply Ne. exact (map_inj (d - 1) s' x y ltac:(lia) Es Ey). }
    destruct (s =? y); cbn [length]; rewrite IH; try reflexivity; intros z Hz; apply Kl; right; exact Hz. }
  apply G, K.
Qed.

(** ** The same points, renumbered, fill the same box *)
Context (place : Z -> point).
Definition place' (v' : Z) : point := place (old 0 v').
Lemma places_renumbered row : (forall v, In v row -> zget (maps 0) (nw v) = Ok v) -> map place' (map nw row) = map place row.
Proof. intros H. unfold place'. rewrite map_map. apply map_ext_in. intros v Hv. unfold old. rewrite (H v Hv). reflexivity. Qed.
Lemma fills_renumbered n : fills_box n T place -> fills_box n U place'.
Proof.
  intros HF. pose proof (v_dim T HT) as HD. pose proof HL as (EF & ED & HN & HE). pose proof (degree_pos F D 0 ltac:(lia) ltac:(lia)) as P0.
  destruct (v_verts T HT D ltac:(lia)) as (LV & _). pose proof (UL D ltac:(lia)) as LU. split.
  - intros v a Hv Ha. destruct (old_ok 0 v ltac:(lia) Hv) as [_ B]. unfold place'. rewrite ED in *. apply (fb_inside n T place HF); assumption.
  - intros v w Hv Hw E. destruct (old_ok 0 v ltac:(lia) Hv) as [E1 B1]. destruct (old_ok 0 w ltac:(lia) Hw) as [E2 B2]. unfold place' in E. apply (fb_apart n T place HF) in E; [|assumption|assumption]. rewrite E in E1. exact (map_inj 0 v w _ ltac:(lia) E1 E2).
  - intros e' row' R'. rewrite EF, ED in *. destruct (row_back T HT maps HP U HL UL D e' row' ltac:(lia) R') as (e & row & _ & R & -> & N). rewrite (places_renumbered row N). exact (fb_upright n T place HF e row R).
  - pose proof (fb_total n T place HF) as FT. rewrite EF, ED. assert (F = OMEGA_H_SIMPLEX \/ F = OMEGA_H_HYPERCUBE) as [Ef|Ef] by (destruct F; auto); rewrite Ef in FT |- *.
    + destruct FT as (rows & EC & LR & ES). assert (element_degree F D 0 = D + 1) as DD by (rewrite Ef; assert (D = 1 \/ D = 2 \/ D = 3) as [->|[->| ->]] by lia; reflexivity). rewrite DD in LV, LU.
      exists (map (tuple (t_verts U D) (D + 1)) (zrange (t_nents U D))). split; [apply tuples_concat; [lia|apply (v_nents U HU); lia|exact LU]|]. split.
      * intros r Hr. apply in_map_iff in Hr as (e & <- & He). apply in_zrange in He. apply (tuple_length _ (t_nents U D)); [lia|exact He|exact LU].
      * rewrite <- ES. rewrite (rows_are_tuples rows (D + 1) _ ltac:(lia) EC LR). assert (zlen rows = t_nents T D) as -> .
        { assert (zlen rows * (D + 1) = t_nents T D * (D + 1)) by (rewrite <- LV, <- EC; symmetry; apply zlen_concat; apply Forall_forall; exact LR). nia. }
        rewrite !map_map. assert (map (fun x => size D (map place' (tuple (t_verts U D) (D + 1) x))) (zrange (t_nents U D)) = map (fun r => size D (map place r)) (map (fun e' => map (old 0) (tuple (t_verts U D) (D + 1) e')) (zrange (t_nents U D)))) as ->.
        { rewrite map_map. apply map_ext. intros e'. f_equal. rewrite map_map. reflexivity. }
        rewrite (rows_renumbered D 0 (D + 1) (t_verts T D) (t_verts U D)); [|lia|lia|exact LV|exact LU|].
        2: { intros e' e w Ee Hw. destruct (HE D e' e ltac:(lia) Ee) as [HV _]. cbv zeta in HV. rewrite DD in HV. exact (HV w Hw). }
        rewrite map_map. apply zsum_perm, Permutation_map. destruct (HR D ltac:(lia)) as [EL PP]. unfold is_perm in PP. rewrite EL in PP. exact PP.
    + rewrite same_nents by lia. exact FT.
  - intros s' row' Hs SR'. rewrite ED in *. destruct (old_ok (D - 1) s' ltac:(lia) Hs) as [Es Bs]. set (s := old (D - 1) s') in *.
    assert (exists row, side_row T s row /\ map place' row' = map place row) as (row & SR & ->).
    { unfold side_row in *. rewrite ED, EF in SR'. destruct (Z.eqb_spec D 1) as [E1|E1].
      - exists [s]. split; [reflexivity|]. subst row'. unfold place'. cbn [map]. subst s. rewrite E1. reflexivity.
      - destruct (row_back T HT maps HP U HL UL (D - 1) s' row' ltac:(lia) SR') as (e & row & Ee & R & -> & N). rewrite Es in Ee. injection Ee as <-. exists row. split; [exact R|]. apply places_renumbered, N. }
    assert (zlen (uses_of (adj_ab2b (t_down U D)) s') = zlen (uses_of (adj_ab2b (t_down T D)) s)) as ->; [|exact (fb_sides n T place HF s row Bs SR)].
    pose proof (degree_pos F D (D - 1) ltac:(lia) ltac:(lia)) as P1.
    assert (forall V, valid_topology V -> t_family V = F -> t_dim V = D -> zlen (adj_ab2b (t_down V D)) = t_nents V D * element_degree F D (D - 1)) as LA.
    { intros V HV E1 E2. destruct (Z.eq_dec D 1) as [EE|EE].
      - rewrite EE. rewrite (v_edges V HV). cbn [adj_ab2b]. destruct (v_verts V HV 1 ltac:(lia)) as (L & _). rewrite L, E1. reflexivity.
      - destruct (v_down V HV D ltac:(lia)) as (ab & cs & -> & L & _). cbn [adj_ab2b]. rewrite L, E1. reflexivity. }
    apply (uses_renumbered D (element_degree F D (D - 1))); [lia|lia|apply LA; auto|apply LA; auto| |exact Es].
    intros e' e w Ee Hw. destruct (HE D e' e ltac:(lia) Ee) as [_ HS]. cbv zeta in HS. exact (proj1 (HS w Hw)).
Qed.
End renumber.
