(** Collapsing edges: the new mesh. *)
From Coq Require Import String Permutation Sorted.
From Verif Require Import Prelude M_Array P_Array M_Par M_Scan S_Sort M_Sort M_Map S_Map P_Map P_Map2 M_Template S_Template P_Template M_Align S_Align P_Align M_Graph S_Graph M_Unique S_Unique P_Unique M_Adj S_Adj P_Adj
  M_Match S_Match P_Match M_Tags M_MeshAdj S_MeshAdj P_MeshAdj P_MeshAdj2 P_MeshAdj3 M_Build S_Build P_Build P_Box P_Mark P_Coarsen S_Across P_Across S_Transit P_Transit S_Unmap P_Unmap
  M_Modify S_Modify M_RefineMesh S_RefineMesh S_Rebuild P_Rebuild P_Rebuild2 P_RefineMesh1 P_RefineMesh4 S_Patch P_Patch S_Collapse P_Collapse1.
Local Open Scope Z_scope.

Section whole.
Context (T : topology) (HT : valid_topology T) (HS : simplicial T) (globals keys rails : list Z) (HC : collapsible T globals keys rails).
Local Notation D := (t_dim T).
Local Notation F := (t_family T).
Local Notation goes := (goes T globals keys rails).
Local Notation becomes := (becomes T globals keys rails).
Local Notation shrinks := (shrinks T globals keys rails).
Local Notation falls := (falls T globals keys rails).
Context (onto : Z -> Z) (ON : forall v, In v keys -> goes v (onto v)).
Local Notation img := (img keys onto).
Definition keyless (row : list Z) : Prop := forall v, In v row -> ~ In v keys.
Context (r : Z -> numbering) (L : Z -> list (list Z)) (origs : Z -> list Z).
Context (RN : forall d, 0 <= d <= D -> renumbers (t_nents T d) (r d)).
Context (KO : forall d x, 0 <= d <= D -> In x (same2old (r d)) <-> exists row, ent_verts T d x row /\ keyless row).
Context (KN : forall d, 0 <= d <= D -> NoDup (same2old (r d))).
Context (O0 : origs 0 = []).
Context (PO : forall d, 0 <= d <= D -> zlen (prods2new (r d)) = zlen (origs d)).
Context (OI : forall d e, 1 <= d <= D -> In e (origs d) <-> exists row, ent_verts T d e row /\ ~ falls d row /\ exists v, In v keys /\ In v row).
Context (OD : forall d, 1 <= d <= D -> NoDup (origs d)).
Context (FD : forall d e row, 1 <= d <= D -> ent_verts T d e row -> falls d row \/ ~ falls d row).
Local Notation nv := (look (old2new (r 0))).
Definition to_new (v : Z) : Z := nv (img v).
Context (FO : forall d, 1 <= d <= D -> Forall2 (fun e prow => exists row, ent_verts T d e row /\ prow = map to_new row) (origs d) (L d)).
Local Notation kept := (kept_ent T r).
Lemma keyless_dec row : keyless row \/ exists v, In v keys /\ In v row.
Proof.
  destruct (Exists_dec (fun v => In v keys) row (fun v => in_dec Z.eq_dec v keys)) as [E|E]; [right; apply Exists_exists in E as (v & A & B); eauto|left]. intros v I K. apply E, Exists_exists. eauto.
Qed.
Lemma kept_row d e row : 0 <= d <= D -> kept d e row <-> ent_verts T d e row /\ keyless row.
Proof.
  intros Hd. split; [intros [I R]|intros [R K]]; [|split; [apply KO; [exact Hd|eauto]|exact R]]. apply KO in I as (row' & R' & K); [|exact Hd]. pose proof (ent_unique T d e _ _ ltac:(lia) R R') as <-. auto.
Qed.
Lemma d0 : 0 <= 0 <= D. Proof. pose proof (v_dim T HT). lia. Qed.
Lemma img_kept v : 0 <= v < t_nents T 0 -> In (img v) (same2old (r 0)).
Proof.
  intros Hv. destruct (img_free T HT HS globals keys rails HC onto ON v Hv) as [A B]. apply KO; [apply d0|]. exists [img v]. split; [split; [exact A|reflexivity]|]. intros x [<-|[]]. exact B.
Qed.
Lemma collapse_picks : S_Unmap.picks T (fun d => same2old (r d)).
Proof.
  pose proof (v_dim T HT) as HD. split; [intros d Hd; split; [apply KN, Hd|]; intros e I; apply KO in I as (row & R & _); [|exact Hd]; apply (ent_range T HT HS d e row Hd R)|]. intros d e w s Hd I Hw Es. apply KO in I as (row & R & K); [|lia]. pose proof (ent_range T HT HS d e row ltac:(lia) R) as He. destruct (Z.eq_dec d 1) as [->|].
  - change (1 - 1) with 0 in *. apply KO; [lia|]. exists [s]. rewrite (v_edges T HT) in Es. cbn [adj_ab2b] in Es. destruct (v_verts T HT 1 ltac:(lia)) as (_ & _ & B0). split; [split; [apply B0; eapply zget_In, Es|reflexivity]|]. intros x [<-|[]]. apply K. apply (ent_high T) in R; [|lia]. destruct R as [_ R].
    rewrite (s_family T HS) in Hw, Es. change (element_degree OMEGA_H_SIMPLEX 1 0) with 2 in *. destruct (R w Hw) as (y & E1 & E2). change (1 + 1) with 2 in E1. assert (y = s) as -> by congruence. eapply zget_In, E2.
  - destruct (v_down T HT d ltac:(lia)) as (ab & codes & E & L1 & L2 & RF). rewrite E in Es. cbn [adj_ab2b] in Es. pose proof (proj1 (ent_high T d e row ltac:(lia)) R) as R'. rewrite <- (deg0 T HS d) in R' by lia.
    destruct (side_exists F d (d - 1) (t_verts T d) e w row ltac:(lia) ltac:(lia) R' Hw) as (srow & SD). pose proof SD as (hr & Rh & _ & F2). assert (hr = row) as -> by (apply (row_is_unique _ _ _ _ _ Rh R')). destruct (RF e w srow SD) as (l & code & lrow & El & _ & Rl & Al & _). assert (l = s) as -> by congruence. rewrite (deg0 T HS (d - 1)) in Rl, Al by lia.
    assert (ent_verts T (d - 1) s lrow) as Rs by (apply ent_high; [lia|exact Rl]). apply KO; [lia|]. exists lrow. split; [exact Rs|]. pose proof (polygon_perm _ _ (polygon_spec (d - 1 + 1) code lrow srow ltac:(lia) (proj1 Rl) Al)) as P. intros x Ix. apply K.
    destruct (zget_list_in row _ _ x F2) as (v & _ & Ev); [apply (Permutation_in _ P); assumption|eapply zget_In, Ev].
Qed.
Lemma h_n0 : prods2new (r 0) = [].
Proof. pose proof (PO 0 d0) as E. rewrite O0 in E. destruct (prods2new (r 0)); [reflexivity|]. unfold zlen in E. cbn in E. lia. Qed.
Lemma h_len d : 1 <= d <= D -> zlen (L d) = zlen (prods2new (r d)).
Proof. intros Hd. rewrite (PO d) by lia. pose proof (Forall2_len _ _ _ (FO d ltac:(lia))) as E. unfold zlen. lia. Qed.
Lemma prod_at d p prow : 1 <= d <= D -> zget (L d) p = Ok prow -> exists e row, zget (origs d) p = Ok e /\ ent_verts T d e row /\ prow = map to_new row /\ ~ falls d row /\ exists v, In v keys /\ In v row.
Proof.
  intros Hd E. pose proof (FO d Hd) as F2. destruct (zget_in_range (origs d) p) as (e & Ee); [apply Forall2_len in F2; pose proof (zget_bounds _ _ _ E) as B; unfold zlen in *; lia|]. destruct (Forall2_at _ _ _ F2 p e prow Ee E) as (row & R & Ep). exists e, row. split; [exact Ee|]. split; [exact R|]. split; [exact Ep|].
  assert (In e (origs d)) as I by (eapply zget_In, Ee). apply OI in I as (row' & R' & A); [|exact Hd]. pose proof (ent_unique T d e _ _ ltac:(lia) R R') as <-. exact A.
Qed.
Lemma prod_in d prow : 1 <= d <= D -> In prow (L d) -> exists e row, ent_verts T d e row /\ prow = map to_new row /\ ~ falls d row /\ exists v, In v keys /\ In v row.
Proof. intros Hd I. apply P_Map.In_zget in I as (p & E). destruct (prod_at d p prow Hd E) as (e & row & _ & A). eauto. Qed.
Lemma in_prod d e row : 1 <= d <= D -> ent_verts T d e row -> ~ falls d row -> (exists v, In v keys /\ In v row) -> In (map to_new row) (L d).
Proof.
  intros Hd R NF K. assert (In e (origs d)) as I by (apply OI; [exact Hd|eauto]). destruct (Forall2_in_l _ _ _ e (FO d Hd) I) as (prow & Ip & row' & R' & ->). pose proof (ent_unique T d e _ _ ltac:(lia) R R') as <-. exact Ip.
Qed.
(** the image of vertices, and their new numbers *)
Lemma to_new_apart x y : 0 <= x < t_nents T 0 -> 0 <= y < t_nents T 0 -> to_new x = to_new y -> img x = img y.
Proof. intros Hx Hy E. exact (nv_kept_inj T HT r RN _ _ (img_kept x Hx) (img_kept y Hy) E). Qed.
Lemma row_apart d e row a b : 0 <= d <= D -> ent_verts T d e row -> ~ shrinks row -> In a row -> In b row -> to_new a = to_new b -> a = b.
Proof.
  intros Hd R NS Ia Ib E. destruct (ent_facts T HT HS d e row Hd R) as (_ & _ & B). apply (img_apart T HT HS globals keys rails HC onto ON d e row a b Hd R NS Ia Ib). apply to_new_apart; auto.
Qed.
Lemma to_new_img row : map to_new row = map nv (map img row). Proof. rewrite map_map. reflexivity. Qed.
Lemma keyless_new row : keyless row -> map to_new row = map nv row.
Proof. intros K. rewrite to_new_img. destruct (keyless_stays T globals keys rails onto 0 row K) as [_ ->]. reflexivity. Qed.
Lemma h_rows d prow : 1 <= d <= D -> In prow (L d) -> zlen prow = d + 1 /\ NoDup prow /\ forall v, In v prow -> 0 <= v < nnew (r 0).
Proof.
  intros Hd I. destruct (prod_in d prow Hd I) as (e & row & R & -> & NF & _). destruct (ent_facts T HT HS d e row ltac:(lia) R) as (Nr & Lr & B). split; [rewrite zlen_map; exact Lr|]. split.
  - apply nodup_map_on; [exact Nr|]. intros a b Ia Ib. apply (row_apart d e row a b ltac:(lia) R); try assumption. eapply falls_not, NF.
  - intros v Iv. apply in_map_iff in Iv as (x & <- & Ix). destruct (nv_kept T HT r RN (img x) (img_kept x (B x Ix))) as [_ A]. apply (new_iff _ _ (RN 0 d0)). left. exact A.
Qed.
Lemma new_perm_img d e e' row row' : 0 <= d <= D -> ent_verts T d e row -> ent_verts T d e' row' -> ~ shrinks row -> ~ shrinks row' -> Permutation (map to_new row) (map to_new row') -> Permutation (map img row) (map img row').
Proof.
  intros Hd R R' NS NS' P. destruct (ent_facts T HT HS d e row Hd R) as (N & _ & B). destruct (ent_facts T HT HS d e' row' Hd R') as (N' & _ & B'). rewrite !to_new_img in P.
  apply (P_RefineMesh5.map_perm_inv nv (fun x => In x (same2old (r 0)))); [intros x y Hx Hy; apply (nv_kept_inj T HT r RN); assumption| | | | |exact P].
  1,2: rewrite Forall_forall; intros x Ix; apply in_map_iff in Ix as (y & <- & Iy); apply img_kept; auto.
  - apply nodup_map_on; [exact N|]. intros a b Ia Ib. apply (img_apart T HT HS globals keys rails HC onto ON d e row a b Hd R NS Ia Ib).
  - apply nodup_map_on; [exact N'|]. intros a b Ia Ib. apply (img_apart T HT HS globals keys rails HC onto ON d e' row' a b Hd R' NS' Ia Ib).
Qed.
Lemma h_once d p p' row row' : 1 <= d <= D -> zget (L d) p = Ok row -> zget (L d) p' = Ok row' -> Permutation row row' -> p = p'.
Proof.
  intros Hd E E' P. destruct (prod_at d p row Hd E) as (e & o & Ee & R & -> & NF & _). destruct (prod_at d p' row' Hd E') as (e' & o' & Ee' & R' & -> & NF' & _).
  assert (e = e') as <- by (apply (stay_apart T HT HS globals keys rails HC onto ON d e e' o o' Hd R R' NF NF'), (new_perm_img d e e' o o' ltac:(lia) R R' (falls_not T globals keys rails d o NF) (falls_not T globals keys rails d o' NF') P)). apply (NoDup_zget _ _ _ _ (OD d Hd) Ee Ee').
Qed.
Lemma h_new d row e row0 : 1 <= d <= D -> In row (L d) -> kept d e row0 -> ~ Permutation row (map nv row0).
Proof.
  intros Hd I K P. apply kept_row in K as [R0 K]; [|lia]. rewrite <- (keyless_new row0 K) in P. destruct (prod_in d row Hd I) as (e' & o & R & -> & NF & v & Kv & Iv). destruct (keyless_stays T globals keys rails onto d row0 K) as [NF0 _].
  assert (e' = e) as -> by (apply (stay_apart T HT HS globals keys rails HC onto ON d e' e o row0 Hd R R0 NF NF0), (new_perm_img d e' e o row0 ltac:(lia) R R0 (falls_not T globals keys rails d o NF) (falls_not T globals keys rails d row0 NF0) P)). pose proof (ent_unique T d e _ _ ltac:(lia) R R0) as ->. apply (K v Iv Kv).
Qed.
(** each old entity that does not shrink is there *)
Lemma present d e row : 1 <= d <= D -> ent_verts T d e row -> ~ shrinks row ->
  (exists prow, In prow (L d) /\ Permutation prow (map to_new row)) \/ (exists s srow, kept d s srow /\ Permutation (map nv srow) (map to_new row)).
Proof.
  intros Hd R NS. destruct (FD d e row Hd R) as [FA|NF].
  - right. destruct (stand_in T HT HS globals keys rails HC onto ON d e row ltac:(lia) R NS FA) as (s & srow & Rs & K & P). exists s, srow. split; [apply kept_row; [lia|auto]|]. rewrite to_new_img. apply Permutation_map, P.
  - destruct (keyless_dec row) as [K|K].
    + right. exists e, row. split; [apply kept_row; [lia|auto]|]. rewrite (keyless_new row K). apply Permutation_refl.
    + left. exists (map to_new row). split; [eapply in_prod; eassumption|apply Permutation_refl].
Qed.
Lemma h_sides d row y : 2 <= d <= D -> In row (L d) -> In y row -> (exists srow, In srow (L (d - 1)) /\ Permutation srow (rm y row)) \/ (exists s srow, kept (d - 1) s srow /\ Permutation (map nv srow) (rm y row)).
Proof.
  intros Hd I Iy. destruct (h_rows d row ltac:(lia) I) as (_ & Np & _). destruct (prod_in d row ltac:(lia) I) as (e & o & R & -> & NF & _). apply in_map_iff in Iy as (z & <- & Iz). destruct (ent_facts T HT HS d e o ltac:(lia) R) as (No & Lo & _).
  assert (Permutation (rm (to_new z) (map to_new o)) (map to_new (rm z o))) as P.
  { apply (Permutation_trans (rm_perm' (to_new z) _ _ (Permutation_map to_new (rm_perm z o No Iz)))). cbn [map]. rewrite rm_cons'; [apply Permutation_refl|]. intros J. apply in_map_iff in J as (x & E & Ix). apply rm_in in Ix as [Ix Nx]. apply Nx. apply (row_apart d e o x z ltac:(lia) R); try assumption. eapply falls_not, NF. }
  destruct (ent_face T HT HS d e o z ltac:(lia) R Iz) as (s & srow & Rs & Ps).
  assert (~ shrinks srow) as NS. { intros SH. apply (falls_not T globals keys rails d o NF). apply (shrinks_sub T globals keys rails srow o); [|exact SH]. intros x Ix. apply (Permutation_in _ Ps), rm_in in Ix. tauto. }
  assert (Permutation (map to_new srow) (rm (to_new z) (map to_new o))) as Q by (apply (Permutation_trans (Permutation_map to_new Ps)), Permutation_sym, P).
  destruct (present (d - 1) s srow ltac:(lia) Rs NS) as [(prow & Ip & Pp)|(s2 & srow2 & K & Pp)]; [left; exists prow|right; exists s2, srow2]; (split; [assumption|exact (Permutation_trans Pp Q)]).
Qed.
Lemma above d e row : 1 <= d < D -> ent_verts T d e row -> ~ shrinks row -> (exists row', In row' (L (d + 1)) /\ incl (map to_new row) row') \/ (exists e' row', kept (d + 1) e' row' /\ incl (map to_new row) (map nv row')).
Proof.
  intros Hd R NS. destruct (c_left _ _ _ _ HC d e row (map img row) Hd R NS) as (h & hrow & hto & Rh & NSh & B & Inc); [apply (becomes_map T HT HS globals keys rails HC onto ON); reflexivity|]. apply (becomes_map T HT HS globals keys rails HC onto ON) in B. subst hto.
  assert (incl (map to_new row) (map to_new hrow)) as J. { rewrite !to_new_img. intros x Ix. apply in_map_iff in Ix as (y & <- & Iy). apply in_map, Inc, Iy. }
  destruct (present (d + 1) h hrow ltac:(lia) Rh NSh) as [(prow & Ip & Pp)|(s2 & srow2 & K & Pp)]; [left; exists prow|right; exists s2, srow2]; (split; [assumption|]); intros x Ix; apply (Permutation_in _ (Permutation_sym Pp)), J, Ix.
Qed.
Lemma h_up d row : 1 <= d < D -> In row (L d) -> (exists row', In row' (L (d + 1)) /\ incl row row') \/ (exists e' row', kept (d + 1) e' row' /\ incl row (map nv row')).
Proof. intros Hd I. destruct (prod_in d row ltac:(lia) I) as (e & o & R & -> & NF & _). apply (above d e o Hd R). eapply falls_not, NF. Qed.
Lemma h_kept_up d e row : 1 <= d < D -> kept d e row -> (exists row', In row' (L (d + 1)) /\ incl (map nv row) row') \/ (exists e' row', kept (d + 1) e' row' /\ incl (map nv row) (map nv row')).
Proof.
  intros Hd K. apply kept_row in K as [R K]; [|lia]. rewrite <- (keyless_new row K). apply (above d e row Hd R). destruct (keyless_stays T globals keys rails onto d row K) as [NF _]. eapply falls_not, NF.
Qed.
Lemma collapse_fits : fits T r (PVL L).
Proof. exact (patch_fits T HT HS r L RN collapse_picks h_len h_rows h_once h_new h_sides). Qed.

Section made.
Context (T' : topology) (RB : rebuilt T r (PVL L) T').
Lemma collapse_simplicial : simplicial T'.
Proof. exact (patch_simplicial T HT HS r L RN collapse_picks h_len h_rows h_once h_new h_sides h_up h_kept_up T' RB). Qed.
Local Notation tag := (fun e : Z => (true, e)).
Definition tagged (d : Z) : list (bool * Z) := map (fun e => (false, e)) (origs d).
Definition came2 (d e' : Z) : bool * Z := patch_from r tag tagged d e'.
Definition came (d e' : Z) : Z := snd (came2 d e').
Lemma t_inj (e e' : Z) : (true, e) = (true, e') -> e = e'. Proof. congruence. Qed.
Lemma t_nodup d : 0 <= d <= D -> NoDup (tagged d).
Proof.
  intros Hd. unfold tagged. destruct (Z.eq_dec d 0) as [->|]; [rewrite O0; constructor|]. apply nodup_map_on; [apply OD; lia|]. intros a b _ _ E. congruence.
Qed.
Lemma t_not d (e : Z) : 0 <= d <= D -> ~ In (true, e) (tagged d).
Proof. intros _ I. apply in_map_iff in I as (x & E & _). discriminate. Qed.
Lemma t_len d : 0 <= d <= D -> zlen (tagged d) = zlen (prods2new (r d)).
Proof. intros Hd. unfold tagged. rewrite zlen_map, (PO d Hd). reflexivity. Qed.
Lemma came_cases d e' : 0 <= d <= D -> 0 <= e' < nnew (r d) ->
  (exists i e, zget (same2old (r d)) i = Ok e /\ zget (same2new (r d)) i = Ok e' /\ came d e' = e) \/ (exists p e, zget (origs d) p = Ok e /\ zget (prods2new (r d)) p = Ok e' /\ came d e' = e).
Proof.
  intros Hd He. destruct (patch_who T r L RN h_len h_rows h_once h_new h_sides h_up h_kept_up tag t_inj tagged t_nodup t_not t_len d e' Hd He) as [(i & e & A & B & C)|(p & o & A & B & C)].
  - left. exists i, e. split; [exact A|]. split; [exact B|]. unfold came, came2. rewrite C. reflexivity.
  - right. unfold tagged in A. rewrite zget_map in A. destruct (zget (origs d) p) as [e| |] eqn:E; try discriminate. cbn in A. injection A as <-. exists p, e. split; [exact E|]. split; [exact B|]. unfold came, came2. rewrite C. reflexivity.
Qed.
Lemma came_nv v : In v (same2old (r 0)) -> came 0 (nv v) = v.
Proof.
  intros I. destruct (kept_number _ _ (RN 0 d0) v I) as (i & y & A & B & C & _). unfold look. rewrite C. unfold came, came2. rewrite (patch_from_same T r RN tag tagged 0 i v y d0 A B). reflexivity.
Qed.
Lemma came_to_new d e row : 0 <= d <= D -> ent_verts T d e row -> map (came 0) (map to_new row) = map img row.
Proof.
  intros Hd R. destruct (ent_facts T HT HS d e row Hd R) as (_ & _ & B). rewrite map_map. apply map_ext_in. intros v I. apply came_nv, img_kept, B, I.
Qed.
Definition makes2 (d : Z) (o : bool * Z) : Prop := exists row, ent_verts T d (snd o) row /\ ~ falls d row /\ if fst o then keyless row else exists v, In v keys /\ In v row.
Definition verts2 (d : Z) (o : bool * Z) (row' : list Z) : Prop := collapse_verts T globals keys rails (came 0) d (snd o) row'.
Lemma assembled2 : assembled T makes2 verts2 came2 T'.
Proof.
  pose proof (v_dim T HT) as HD.
  refine (patch_assembled T HT HS r L RN collapse_picks h_n0 h_len h_rows h_once h_new h_sides h_up h_kept_up T' RB tag t_inj tagged t_nodup t_not t_len makes2 verts2 _ _ _).
  - intros d [b e] Hd. unfold makes2. cbn [fst snd]. unfold tagged. split.
    + intros (row & R & NF & K). destruct b; [left; exists e; split; [reflexivity|]; apply KO; [exact Hd|eauto]|right]. apply in_map. destruct (Z.eq_dec d 0) as [->|].
      * exfalso. destruct K as (v & Kv & Iv). destruct R as [He ->]. apply NF. destruct Iv as [<-|[]]. apply (vert_falls T HT HS globals keys rails onto ON); assumption.
      * apply OI; [lia|eauto].
    + intros [(x & E & I)|I].
      * injection E as -> ->. apply KO in I as (row & R & K); [|exact Hd]. exists row. split; [exact R|]. split; [apply (keyless_stays T globals keys rails onto d row K)|exact K].
      * apply in_map_iff in I as (x & E & I). injection E as <- <-. destruct (Z.eq_dec d 0) as [->|]; [rewrite O0 in I; destruct I|]. apply OI in I; [exact I|lia].
  - intros d e row Hd K. apply kept_row in K as [R K]; [|exact Hd]. exists row. cbn [snd]. split; [exact R|]. rewrite <- (keyless_new row K), (came_to_new d e row Hd R). apply (becomes_map T HT HS globals keys rails HC onto ON). reflexivity.
  - intros d p o row' Hd Eo Er. unfold tagged in Eo. rewrite zget_map in Eo. destruct (prod_at d p row' Hd Er) as (e & row & Ee & R & -> & _). rewrite Ee in Eo. cbn in Eo. injection Eo as <-. exists row. cbn [snd]. split; [exact R|]. rewrite (came_to_new d e row ltac:(lia) R). apply (becomes_map T HT HS globals keys rails HC onto ON). reflexivity.
Qed.
Lemma collapse_assembled : assembled T (collapse_makes T globals keys rails) (collapse_verts T globals keys rails (came 0)) came T'.
Proof.
  destruct assembled2 as [A1 A2 A3 A4]. constructor; [exact A1|exact A2| |].
  - intros d e' Hd He. destruct (A3 d e' Hd He) as [(row & R & NF & _) V]. split; [exists row; auto|exact V].
  - intros d e Hd (row & R & NF). assert (exists b : bool, makes2 d (b, e)) as (b & M). { destruct (keyless_dec row) as [K|K]; [exists true|exists false]; exists row; auto. }
    destruct (A4 d (b, e) Hd M) as (e' & He & E & U). exists e'. split; [exact He|]. split; [unfold came; rewrite E; reflexivity|]. intros e'' He'' E''. apply U; [exact He''|]. unfold came in E''. destruct (A3 d e'' Hd He'') as [M'' _]. destruct (came2 d e'') as [b' x]. cbn in E''. subst x. f_equal.
    destruct M as (row1 & R1 & _ & K1). destruct M'' as (row2 & R2 & _ & K2). cbn [fst snd] in *. pose proof (ent_unique T d e _ _ ltac:(lia) R R1) as <-. pose proof (ent_unique T d e _ _ ltac:(lia) R R2) as <-. destruct b, b'; try reflexivity; exfalso; [destruct K2 as (v & X & Y); exact (K1 v Y X)|destruct K1 as (v & X & Y); exact (K2 v Y X)].
Qed.
Lemma collapse_covered : covered T globals keys rails (came 0) T'.
Proof.
  intros d e row to Hd R NS B. apply (becomes_map T HT HS globals keys rails HC onto ON) in B. subst to. rewrite <- (came_to_new d e row ltac:(lia) R). destruct (present d e row Hd R NS) as [(prow & Ip & Pp)|(s2 & srow2 & K & Pp)].
  - destruct (patch_prod T HT HS r L RN collapse_picks h_len h_rows h_once h_new h_sides d prow Hd Ip) as (e' & N). exists e', prow. split; [apply (patch_ent T HT HS r L RN h_len h_rows h_once h_new h_sides h_up h_kept_up T' RB d e' prow Hd), N|apply Permutation_map, Pp].
  - destruct (patch_kept T HT HS r L RN collapse_picks h_len h_rows h_once h_new h_sides d s2 srow2 Hd K) as (e' & N). exists e', (map nv srow2). split; [apply (patch_ent T HT HS r L RN h_len h_rows h_once h_new h_sides h_up h_kept_up T' RB d e' _ Hd), N|apply Permutation_map, Pp].
Qed.
End made.
End whole.
