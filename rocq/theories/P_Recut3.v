(** Swapping edges of a 3D mesh: new and old entities around the keys. *)
From Coq Require Import String Permutation Sorted.
From Verif Require Import Prelude M_Array P_Array M_Par M_Scan S_Scan P_Scan P_Fan S_Sort M_Sort M_Map S_Map P_Map P_Map2 M_Template S_Template P_Template M_Align S_Align P_Align M_Graph S_Graph P_Graph M_Unique S_Unique P_Unique M_Adj S_Adj P_Adj S_Transit P_Transit S_Across P_Across
  M_Match S_Match P_Match M_Tags M_MeshAdj S_MeshAdj P_MeshAdj P_MeshAdj2 P_MeshAdj3 M_Build S_Build P_Build P_Box S_Unmap P_Unmap P_Mark P_Coarsen P_Mark
  M_Modify S_Modify P_Modify P_Modify2 M_SwapTables M_Swap3d S_Swap3d S_SwapMesh P_SwapTables P_Loop P_SwapVolume P_SwapKey S_Coarsen M_Refine S_Refine P_Refine P_SwapTopo M_RefineMesh S_RefineMesh S_Rebuild P_Rebuild P_RefineMesh1 P_RefineMesh2 P_RefineMesh3 P_RefineMesh4 P_RefineMesh5 S_Recut P_Recut1 P_Recut2.
Local Open Scope Z_scope.

Record swap_data := mk_sd { sd_0 : Z; sd_1 : Z; sd_l : list Z; sd_m : Z; sd_E : list (list Z); sd_T : list (list Z) }.
Section fixed.
Context (T : topology) (HT : valid_topology T) (HS : simplicial T) (keys configs : list Z) (HX : recuttable T keys configs).
Let D3 : t_dim T = 3 := x_dim T keys configs HX.
Let HK : splittable T keys := x_apart T keys configs HX.
Record is_data (k : Z) (g : swap_data) : Prop := {
  id_ring : ring_around T k (sd_0 g) (sd_1 g) (sd_l g);
  id_m : zget configs k = Ok (sd_m g);
  id_E : config_edges (zlen (sd_l g)) (sd_m g) = Ok (sd_E g);
  id_T : config_tris (zlen (sd_l g)) (sd_m g) = Ok (sd_T g);
  id_ok : recut_ok (zlen (sd_l g)) (sd_E g) (sd_T g);
  id_cut : recut T configs k (sd_0 g) (sd_1 g) (sd_l g) (map norm (sd_E g));
  id_one : forall e0 e1 l D, recut T configs k e0 e1 l D -> e0 = sd_0 g /\ e1 = sd_1 g /\ l = sd_l g /\ forall p, In p D <-> In p (map norm (sd_E g));
  id_tris : forall t, In t (sd_T g) <-> exists a b c, t = [a; b; c] /\ triangle (zlen (sd_l g)) (map norm (sd_E g)) a b c }.
Lemma has_data k : In k keys -> exists g, is_data k g.
Proof.
  intros I. destruct (x_inside T keys configs HX k I) as (e0 & e1 & l & D & H). pose proof H as (R & m & Em & (count & Ec & Hm) & TD & E & EE & NE). pose proof R as (_ & _ & Hn & _).
  destruct (recut_at (zlen l) m count Hn Ec Hm) as (E' & Ts & EE' & ET & RO). assert (E' = E) as -> by congruence. destruct (check_at (zlen l) Hn) as (c & Ec' & CK & _). assert (c = count) as -> by congruence.
  destruct (config_sound (zlen l) m (CK m Hm)) as (E1 & T1 & EE1 & ET1 & TR & NN & _ & _ & TT). assert (E1 = E) as -> by congruence. assert (T1 = Ts) as -> by congruence.
  exists (mk_sd e0 e1 l m E Ts). constructor; cbn [sd_0 sd_1 sd_l sd_m sd_E sd_T]; try assumption.
  - split; [exact R|]. exists m. split; [exact Em|]. split; [eauto|]. split; [exact TR|]. exists E. auto.
  - intros e0' e1' l' D' (R' & m' & Em' & _ & TD' & E' & EE'' & NE'). destruct (ring_unique T _ _ _ _ _ _ _ R' R) as (-> & -> & ->). split; [reflexivity|]. split; [reflexivity|]. split; [reflexivity|]. assert (m' = m) as -> by congruence. assert (E' = E) as -> by congruence.
    apply (proj1 (names_ext E D' (map norm E) NE' (triangulation_lt _ _ TD') (triangulation_lt _ _ TR))). exact NN.
Qed.
Context (g : Z -> swap_data) (G : forall k, In k keys -> is_data k (g k)).
Definition no_key (d e : Z) : Prop := forall k, In k keys -> ~ has_edge T d e k.
Definition N (k : Z) : Z := zlen (sd_l (g k)).
Definition F (k : Z) : Z -> Z := lab (sd_0 (g k)) (sd_1 (g k)) (sd_l (g k)).
Definition A (k d : Z) : list (list Z) := made (N k) (sd_E (g k)) (sd_T (g k)) d.
Lemma g_ok k : In k keys -> recut_ok (N k) (sd_E (g k)) (sd_T (g k)). Proof. intros I. apply (id_ok k (g k) (G k I)). Qed.
Lemma g_nodup k : In k keys -> NoDup (sd_0 (g k) :: sd_1 (g k) :: sd_l (g k)). Proof. intros I. destruct (id_ring k (g k) (G k I)) as (_ & H & _). exact H. Qed.
Lemma F_inj k i j : In k keys -> 0 <= i < N k + 2 -> 0 <= j < N k + 2 -> F k i = F k j -> i = j.
Proof. intros I. apply lab_inj, g_nodup, I. Qed.
Lemma F_n k : F k (N k) = sd_0 (g k). Proof. apply lab_n. Qed.
Lemma F_n1 k : F k (N k + 1) = sd_1 (g k). Proof. apply lab_n1. Qed.
Lemma F_nodup k q : In k keys -> (forall i, In i q -> 0 <= i < N k + 2) -> NoDup q -> NoDup (map (F k) q).
Proof. intros I B. apply (map_nodup (F k) (fun i => 0 <= i < N k + 2)); [intros x y Hx Hy; apply F_inj; assumption|apply Forall_forall, B]. Qed.
Lemma A_range k d q i : In k keys -> 1 <= d <= 3 -> In q (A k d) -> In i q -> 0 <= i < N k + 2.
Proof. intros I Hd Iq. apply (ro_row _ _ _ (g_ok k I) d q Hd Iq). Qed.
(** a tet of a key *)
Lemma old_tet k lt : In k keys -> In lt (old_labels (N k)) -> exists t tv, ent_verts T 3 t tv /\ Permutation tv (map (F k) lt) /\ has_edge T 3 t k /\ zlen lt = 4 /\ NoDup lt /\ forall i, In i lt -> 0 <= i < N k + 2.
Proof.
  intros I It. pose proof (id_ring k (g k) (G k I)) as R. pose proof R as (_ & _ & _ & _ & B & _).
  assert (In (map (F k) lt) (map (fun p => [sd_0 (g k); sd_1 (g k); fst p; snd p]) (cycle (sd_l (g k))))) as J by (rewrite old_lab; apply in_map, It). apply in_map_iff in J as ([x y] & E & Ip). cbn [fst snd] in E. destruct (B x y Ip) as (t & tv & Rt & St). destruct (ring_has T k _ _ _ _ _ _ _ R Ip Rt St) as [Ht P]. exists t, tv. split; [exact Rt|]. rewrite <- E. split; [exact P|]. split; [exact Ht|].
  assert (forall i, In i lt -> 0 <= i < N k + 2) as BB by (apply old_in, It). split; [|split; [|exact BB]].
  - apply (f_equal (@length Z)) in E. rewrite map_length in E. unfold zlen. cbn in E. lia.
  - apply (NoDup_map_inv (F k)). rewrite <- E. apply (ring_four T k _ _ _ _ _ R Ip).
Qed.
Lemma tet_old k t tv : In k keys -> ent_verts T 3 t tv -> has_edge T 3 t k -> exists lt, In lt (old_labels (N k)) /\ Permutation tv (map (F k) lt).
Proof.
  intros I Rt Ht. pose proof (id_ring k (g k) (G k I)) as R. pose proof R as (_ & _ & _ & B & _). destruct (B t Ht) as (x & y & tv' & Ip & Rt' & St). pose proof (ent_unique T 3 t _ _ ltac:(lia) Rt Rt') as <-. destruct (ring_has T k _ _ _ _ _ _ _ R Ip Rt St) as [_ P].
  assert (In [sd_0 (g k); sd_1 (g k); x; y] (map (map (F k)) (old_labels (N k)))) as J by (unfold F, N; rewrite <- old_lab; apply in_map_iff; exists (x, y); auto). apply in_map_iff in J as (lt & E & It). exists lt. split; [exact It|]. rewrite E. exact P.
Qed.
(** entities on the boundary of the tets of a key stay *)
Lemma sub_old k q : In k keys -> oldish (N k) q = true -> NoDup q -> q <> [] -> ~ (In (N k) q /\ In (N k + 1) q) ->
  exists s srow, ent_verts T (zlen q - 1) s srow /\ Permutation srow (map (F k) q) /\ no_key (zlen q - 1) s /\ forall i, In i q -> 0 <= i < N k + 2.
Proof.
  intros I O Nq Eq NB. unfold oldish in O. apply existsb_exists in O as (lt & It & O). apply sub_ok in O. destruct (old_tet k lt I It) as (t & tv & Rt & P & Ht & L4 & Nl & BB).
  assert (forall i, In i q -> 0 <= i < N k + 2) as Bq by (intros i Hi; apply BB, O, Hi).
  destruct (part T HT HS 3 t tv (map (F k) q) ltac:(lia) Rt (F_nodup k q I Bq Nq)) as (s & srow & Rs & Ps).
  - intros v Hv. apply in_map_iff in Hv as (i & <- & Hi). apply (Permutation_in _ (Permutation_sym P)), in_map, O, Hi.
  - destruct q; [congruence|discriminate].
  - rewrite zlen_map in Rs. exists s, srow. split; [exact Rs|]. split; [exact Ps|]. split; [|exact Bq]. intros k' Ik' H. destruct H as (row1 & a & b & R1 & Rk & Ia & Ib).
    assert (zlen q <= 4) as Lq by (pose proof (NoDup_incl_length Nq O) as X; unfold zlen in *; lia). assert (1 <= zlen q) as Lq1 by (destruct q; [congruence|rewrite zlen_cons; pose proof (zlen_nonneg q); lia]).
    assert (row1 = srow) as -> by (apply (ent_unique T (zlen q - 1) s); [lia|assumption|assumption]).
    assert (has_edge T 3 t k') as H'. { exists tv, a, b. split; [exact Rt|]. split; [exact Rk|]. split; match goal with |- In ?x _ => apply (Permutation_in _ (Permutation_sym P)); assert (In x (map (F k) q)) as J by (apply (Permutation_in _ Ps); assumption) end; apply in_map_iff in J as (i & <- & Hi); apply in_map, O, Hi. }
    assert (k' = k) as -> by (apply (P_RefineMesh1.one_key T HT HS keys HK 3 t k' k ltac:(lia)); assumption).
    destruct (id_ring k (g k) (G k I)) as (Rk' & _). pose proof (ent_unique T 1 k _ _ ltac:(lia) Rk Rk') as E. injection E as -> ->. apply NB. rewrite <- F_n in Ia. rewrite <- F_n1 in Ib. pose proof (zlen_nonneg (sd_l (g k))) as Hn. fold (N k) in Hn.
    split; [apply (Permutation_in _ Ps) in Ia; apply in_map_iff in Ia as (i & E & Hi); apply F_inj in E; [congruence|exact I|apply Bq, Hi|lia]|apply (Permutation_in _ Ps) in Ib; apply in_map_iff in Ib as (i & E & Hi); apply F_inj in E; [congruence|exact I|apply Bq, Hi|lia]].
Qed.
(** a new pair is joined by no entity that stays *)
Lemma new_pair k e : In k keys -> In e (sd_E (g k)) -> exists a b x y, e = [a; b] /\ a <> b /\ 0 <= a < N k /\ 0 <= b < N k /\ new_edge T configs k x y /\ Permutation [F k a; F k b] [x; y].
Proof.
  intros I Ie. destruct (ro_E2 _ _ _ (g_ok k I) e Ie) as (a & b & ->). pose proof (ro_row _ _ _ (g_ok k I) 1 [a; b] ltac:(lia) Ie) as (_ & Nd & _). assert (a <> b) as Hab by (intros ->; apply NoDup_cons_iff in Nd as [Nd _]; apply Nd; left; reflexivity).
  pose proof (ro_En _ _ _ (g_ok k I)) as EN. rewrite forallb_forall in EN. pose proof (in_labels_ok _ _ (EN _ Ie)) as B. assert (0 <= a < N k) as Ba by (apply B; cbn; tauto). assert (0 <= b < N k) as Bb by (apply B; cbn; tauto).
  assert (In (norm [a; b]) (map norm (sd_E (g k)))) as J by (apply in_map, Ie). cbn [norm] in J. exists a, b, (F k (Z.min a b)), (F k (Z.max a b)). split; [reflexivity|]. split; [exact Hab|]. split; [exact Ba|]. split; [exact Bb|]. split.
  - exists (sd_0 (g k)), (sd_1 (g k)), (sd_l (g k)), (map norm (sd_E (g k))), (Z.min a b), (Z.max a b). split; [apply (id_cut k (g k) (G k I))|]. split; [exact J|]. split; apply get_lab; fold (N k); lia.
  - destruct (Z_lt_dec a b); [rewrite Z.min_l, Z.max_r by lia; apply Permutation_refl|rewrite Z.min_r, Z.max_l by lia; apply perm_swap].
Qed.
Lemma no_pair k a b d e row : In k keys -> In [a; b] (sd_E (g k)) -> 1 <= d <= 3 -> ent_verts T d e row -> In (F k a) row -> In (F k b) row -> ~ no_key d e.
Proof.
  intros I Ie Hd R Ia Ib NK. destruct (new_pair k [a; b] I Ie) as (a' & b' & x & y & E & Hab & Ba & Bb & NE & P). injection E as <- <-.
  assert (F k a <> F k b) as NF by (intros E; apply F_inj in E; [congruence|exact I|lia|lia]).
  destruct (part T HT HS d e row [F k a; F k b] ltac:(lia) R) as (s & srow & Rs & Ps); [repeat constructor; cbn; intuition congruence|intros v [<-|[<-|[]]]; assumption|discriminate|]. change (zlen [F k a; F k b] - 1) with 1 in Rs.
  pose proof (x_new T keys configs HX k x y s srow I NE Rs (Permutation_trans Ps P)) as Is. apply (NK s Is). destruct (edge_row T HT HS s srow Rs) as (p & q & -> & _). exists row, p, q. split; [exact R|]. split; [exact Rs|].
  split; [assert (In p [F k a; F k b]) as J by (apply (Permutation_in _ Ps); cbn; tauto)|assert (In q [F k a; F k b]) as J by (apply (Permutation_in _ Ps); cbn; tauto)]; destruct J as [<-|[<-|[]]]; assumption.
Qed.
Lemma ring3 k : In k keys -> N k = 3 -> sd_l (g k) = [F k 0; F k 1; F k 2].
Proof. intros I E. unfold F. rewrite <- (map_lab (sd_0 (g k)) (sd_1 (g k)) (sd_l (g k))) at 1. unfold N in E. rewrite E. reflexivity. Qed.
Lemma no_face k d e row : In k keys -> N k = 3 -> 2 <= d <= 3 -> ent_verts T d e row -> incl [F k 0; F k 1; F k 2] row -> False.
Proof.
  intros I E Hd R Inc. pose proof (id_ring k (g k) (G k I)) as RR. rewrite (ring3 k I E) in RR. assert (NoDup [F k 0; F k 1; F k 2]) as Nd. { apply (F_nodup k [0; 1; 2] I); [intros i Hi; cbn in Hi; lia|]. repeat constructor; cbn; intuition congruence. }
  destruct (part T HT HS d e row _ ltac:(lia) R Nd Inc ltac:(discriminate)) as (s & srow & Rs & Ps). exact (x_face T keys configs HX k _ _ _ _ _ s srow I RR Rs Ps).
Qed.
(** new entities are none that stay *)
Lemma fresh k d q e row : In k keys -> 1 <= d <= 3 -> In q (A k d) -> ent_verts T d e row -> Permutation (map (F k) q) row -> ~ no_key d e.
Proof.
  intros I Hd Iq R P NK. destruct (ro_row _ _ _ (g_ok k I) d q Hd Iq) as (L & Nd & B & _ & W). unfold newish in W. apply orb_true_iff in W as [W|W].
  - apply existsb_exists in W as (p & Ip & W). apply sub_ok in W. destruct (ro_E2 _ _ _ (g_ok k I) p Ip) as (a & b & ->). apply (no_pair k a b d e row I Ip Hd R); [| |exact NK]; apply (Permutation_in _ P), in_map, W; cbn; tauto.
  - apply andb_true_iff in W as [W1 W]. apply Z.eqb_eq in W1. apply sub_ok in W. destruct (Z.eq_dec d 1) as [->|].
    + assert (NoDup [0; 1; 2]) as N3 by (repeat constructor; cbn; intuition congruence). pose proof (NoDup_incl_length N3 W) as X. unfold zlen in L. cbn [length] in X. lia.
    + apply (no_face k d e row I W1 ltac:(lia) R). intros v Hv. apply (Permutation_in _ P). assert (In v (map (F k) [0; 1; 2])) as J by exact Hv. apply in_map_iff in J as (i & <- & Hi). apply in_map, W, Hi.
Qed.
(** two keys make different entities *)
Lemma pre k q x : In x (map (F k) q) -> exists i, In i q /\ x = F k i. Proof. intros H. apply in_map_iff in H as (i & <- & Hi). eauto. Qed.
Lemma pair_in k k' d q' a b : In k keys -> In k' keys -> 1 <= d <= 3 -> In q' (A k' d) -> In [a; b] (sd_E (g k)) -> In (F k a) (map (F k') q') -> In (F k b) (map (F k') q') -> k = k'.
Proof.
  intros I I' Hd Iq Ie Ia Ib. destruct (new_pair k [a; b] I Ie) as (a1 & b1 & x & y & E & Hab & Ba & Bb & NE & P). injection E as <- <-. assert (F k a <> F k b) as NF by (intros E; apply F_inj in E; [congruence|exact I|lia|lia]).
  apply pre in Ia as (a' & Ia & Ea). apply pre in Ib as (b' & Ib & Eb). assert (a' <> b') as Hab' by congruence. destruct (ro_row _ _ _ (g_ok k' I') d q' Hd Iq) as (_ & _ & B' & NB & _).
  destruct (ro_part _ _ _ (g_ok k' I') d q' [a'; b'] Hd Iq) as [W|W]; [intros v [<-|[<-|[]]]; assumption| |].
  - unfold newish in W. apply orb_true_iff in W as [W|W].
    + apply existsb_exists in W as (p & Ip & W). apply sub_ok in W. destruct (new_pair k' p I' Ip) as (u & v & x' & y' & -> & Huv & _ & _ & NE' & P'). apply (x_once T keys configs HX k x y k' x' y' I I' NE NE').
      apply (Permutation_trans (Permutation_sym P)). rewrite Ea, Eb. refine (Permutation_trans _ P'). apply (Permutation_map (F k') (l := [a'; b']) (l' := [u; v])). apply Permutation_sym, incl_same; [repeat constructor; cbn; intuition congruence|repeat constructor; cbn; intuition congruence|exact W|reflexivity].
    + apply andb_true_iff in W as [_ W]. apply sub_ok in W. assert (NoDup [0; 1; 2]) as N3 by (repeat constructor; cbn; intuition congruence). pose proof (NoDup_incl_length N3 W) as X. cbn [length] in X. lia.
  - exfalso. destruct (sub_old k' [a'; b'] I' W) as (s & srow & Rs & Ps & NK & _); [repeat constructor; cbn; intuition congruence|discriminate|intros [J1 J2]; apply NB; split; [destruct J1 as [<-|[<-|[]]]|destruct J2 as [<-|[<-|[]]]]; assumption|]. change (zlen [a'; b'] - 1) with 1 in *.
    apply (no_pair k a b 1 s srow I Ie ltac:(lia) Rs); [rewrite Ea|rewrite Eb|exact NK]; apply (Permutation_in _ (Permutation_sym Ps)); cbn; tauto.
Qed.
Lemma old3 : forall u v, In u [0; 1; 2] -> In v [0; 1; 2] -> oldish 3 [u; v] = true.
Proof. intros u v [<-|[<-|[<-|[]]]] [<-|[<-|[<-|[]]]]; reflexivity. Qed.
Lemma same_key k k' d q q' : In k keys -> In k' keys -> 1 <= d <= 3 -> In q (A k d) -> In q' (A k' d) -> Permutation (map (F k) q) (map (F k') q') -> k = k'.
Proof.
  intros I I' Hd Iq Iq' P. destruct (ro_row _ _ _ (g_ok k I) d q Hd Iq) as (L & Nd & B & _ & W). destruct (ro_row _ _ _ (g_ok k' I') d q' Hd Iq') as (L' & Nd' & B' & NB' & _). unfold newish in W. apply orb_true_iff in W as [W|W].
  - apply existsb_exists in W as (p & Ip & W). apply sub_ok in W. destruct (ro_E2 _ _ _ (g_ok k I) p Ip) as (a & b & ->). apply (pair_in k k' d q' a b I I' Hd Iq' Ip); apply (Permutation_in _ P), in_map, W; cbn; tauto.
  - apply andb_true_iff in W as [W1 W]. apply Z.eqb_eq in W1. apply sub_ok in W. assert (NoDup [0; 1; 2]) as N3 by (repeat constructor; cbn; intuition congruence).
    assert (NoDup (map (F k) [0; 1; 2])) as NF by (apply (F_nodup k [0; 1; 2] I); [intros i Hi; cbn in Hi; lia|exact N3]).
    assert (forall i, In i [0; 1; 2] -> exists j, In j q' /\ F k i = F k' j) as K by (intros i Hi; apply pre, (Permutation_in _ P), in_map, W, Hi).
    destruct (K 0 ltac:(cbn; tauto)) as (a & Ia & Ea). destruct (K 1 ltac:(cbn; tauto)) as (b & Ib & Eb). destruct (K 2 ltac:(cbn; tauto)) as (c & Ic & Ec).
    assert (map (F k') [a; b; c] = map (F k) [0; 1; 2]) as E3 by (cbn; congruence). assert (NoDup [a; b; c]) as Na by (apply (NoDup_map_inv (F k')); rewrite E3; exact NF). assert (incl [a; b; c] q') as Inc by (intros v [<-|[<-|[<-|[]]]]; assumption).
    destruct (ro_part _ _ _ (g_ok k' I') d q' [a; b; c] Hd Iq' Inc) as [V|V].
    + unfold newish in V. apply orb_true_iff in V as [V|V].
      * exfalso. apply existsb_exists in V as (p & Ip & V). apply sub_ok in V. destruct (new_pair k' p I' Ip) as (u & v & x' & y' & -> & Huv & Bu & Bv & _).
        assert (forall w, In w [u; v] -> exists i, In i [0; 1; 2] /\ F k' w = F k i) as K' by (intros w Hw; apply pre; rewrite <- E3; apply in_map, V, Hw). destruct (K' u ltac:(cbn; tauto)) as (i & Ii & Ei). destruct (K' v ltac:(cbn; tauto)) as (j & Ij & Ej).
        assert (i <> j) as Hij by (intros ->; apply Huv; apply (F_inj k' u v I'); [lia|lia|congruence]). destruct (sub_old k [i; j] I) as (s & srow & Rs & Ps & NK & _); [rewrite W1; apply old3; assumption|repeat constructor; cbn; intuition congruence|discriminate|rewrite W1; clear - Ii Ij; cbn in *; lia|]. change (zlen [i; j] - 1) with 1 in *.
        apply (no_pair k' u v 1 s srow I' Ip ltac:(lia) Rs); [rewrite Ei|rewrite Ej|exact NK]; apply (Permutation_in _ (Permutation_sym Ps)); cbn; tauto.
      * apply andb_true_iff in V as [V1 V]. apply Z.eqb_eq in V1. apply sub_ok in V. pose proof (id_ring k (g k) (G k I)) as R. pose proof (id_ring k' (g k') (G k' I')) as R'. rewrite (ring3 k I W1) in R. rewrite (ring3 k' I' V1) in R'. apply (x_face_once T keys configs HX k _ _ _ _ _ k' _ _ _ _ _ I I' R R').
        change (Permutation (map (F k) [0; 1; 2]) (map (F k') [0; 1; 2])). rewrite <- E3. apply Permutation_map, Permutation_sym, incl_same; [exact N3|exact Na|exact V|reflexivity].
    + exfalso. destruct (sub_old k' [a; b; c] I' V Na ltac:(discriminate)) as (s & srow & Rs & Ps & _); [intros [J1 J2]; apply NB'; split; apply Inc; assumption|]. change (zlen [a; b; c] - 1) with 2 in *. apply (no_face k 2 s srow I W1 ltac:(lia) Rs). intros v Hv. apply (Permutation_in _ (Permutation_sym Ps)). rewrite E3. exact Hv.
Qed.
End fixed.
