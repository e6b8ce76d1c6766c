(** Rebuilding the connectivity of a mesh of which a part is replaced. *)
From Coq Require Import String.
From Verif Require Import Prelude M_Array P_Array M_Par M_Scan S_Sort M_Sort M_Map S_Map P_Map P_Map2 M_Template S_Template P_Template M_Align S_Align P_Align M_Unique S_Unique P_Unique M_Adj S_Adj P_Adj S_Transit P_Transit
  M_Match S_Match P_Match M_Tags M_Modify M_MeshAdj S_MeshAdj P_MeshAdj P_MeshAdj2 P_MeshAdj3 M_Build S_Build P_Build P_Box S_Unmap P_Unmap M_RefineMesh S_Rebuild.
Local Open Scope Z_scope.

Lemma NoDup_left {A} (l m : list A) : NoDup (l ++ m) -> NoDup l.
Proof. induction l as [|x l IH]; cbn; [constructor|]. intros N. inversion N as [|? ? Nx Nl]; subst. constructor; [rewrite in_app_iff in Nx; tauto|auto]. Qed.
Lemma NoDup_right {A} (l m : list A) : NoDup (l ++ m) -> NoDup m.
Proof. induction l as [|x l IH]; cbn; [auto|]. intros N. inversion N; auto. Qed.
Lemma Forall2_at {A B} (R : A -> B -> Prop) l m : Forall2 R l m -> forall i x y, zget l i = Ok x -> zget m i = Ok y -> R x y.
Proof. intros H i x y Ex Ey. destruct (Forall2_zget R l m H i x Ex) as (y' & Ey' & Hr). congruence. Qed.
Lemma Forall2_of {A B} (R : A -> B -> Prop) : forall l l', zlen l = zlen l' -> (forall i a b, zget l i = Ok a -> zget l' i = Ok b -> R a b) -> Forall2 R l l'.
Proof.
  intros l. induction l as [|x l IH]; intros [|y m] L H; unfold zlen in L; cbn in L; try lia; constructor.
  - apply (H 0); reflexivity.
  - apply IH; [unfold zlen; lia|]. intros i a b Ea Eb. pose proof (zget_bounds _ _ _ Ea). apply (H (i + 1)).
    + change (x :: l) with ([x] ++ l). rewrite zget_app_r by (cbn; lia). change (zlen [x]) with 1. replace (i + 1 - 1) with i by lia. exact Ea.
    + change (y :: m) with ([y] ++ m). rewrite zget_app_r by (cbn; lia). change (zlen [y]) with 1. replace (i + 1 - 1) with i by lia. exact Eb.
Qed.

(** ** Numbers *)
Section numbers.
Context (n : Z) (r : numbering) (R : renumbers n r).
Lemma all_nodup : NoDup (same2new r ++ prods2new r).
Proof. eapply Permutation_NoDup; [apply Permutation_sym, (rn_all n r R)|apply zrange_NoDup]. Qed.
Lemma same_nodup : NoDup (same2new r). Proof. eapply NoDup_left, all_nodup. Qed.
Lemma prods_nodup : NoDup (prods2new r). Proof. eapply NoDup_right, all_nodup. Qed.
Lemma apart x : In x (same2new r) -> In x (prods2new r) -> False.
Proof.
  intros H1 H2. pose proof all_nodup as N. revert H1 N. generalize (same2new r) as l. induction l as [|y l IH]; intros H1 N; [destruct H1|]. cbn in N. inversion N as [|? ? Ny Nl]; subst. destruct H1 as [->|H1]; [apply Ny, in_app_iff; right; exact H2|auto].
Qed.
Lemma new_iff x : 0 <= x < nnew r <-> In x (same2new r) \/ In x (prods2new r).
Proof.
  rewrite <- in_app_iff. rewrite <- in_zrange. split; intros H; [eapply Permutation_in; [apply Permutation_sym, (rn_all n r R)|exact H]|eapply Permutation_in; [apply (rn_all n r R)|exact H]].
Qed.
Lemma total_eq : 0 <= nnew r -> zlen (same2old r) + zlen (prods2new r) = nnew r.
Proof. intros H. rewrite <- (rn_len n r R), <- zlen_app. unfold zlen. rewrite (Permutation_length (rn_all n r R)), zrange_length. lia. Qed.
Lemma kept_number x : In x (same2old r) -> exists i y, zget (same2old r) i = Ok x /\ zget (same2new r) i = Ok y /\ zget (old2new r) x = Ok y /\ 0 <= y < nnew r.
Proof.
  intros H. destruct (In_zget _ _ H) as (i & Ei). pose proof (zget_bounds _ _ _ Ei) as B. rewrite <- (rn_len n r R) in B. destruct (zget_in_range _ _ B) as (y & Ey). exists i, y.
  split; [exact Ei|]. split; [exact Ey|]. split; [exact (rn_same n r R i x y Ei Ey)|]. apply new_iff. left. eapply zget_In, Ey.
Qed.
Lemma kept_apart x x' y : In x (same2old r) -> In x' (same2old r) -> zget (old2new r) x = Ok y -> zget (old2new r) x' = Ok y -> x = x'.
Proof.
  intros H H' E E'. destruct (kept_number x H) as (i & y1 & Ei & Ey & Eo & _). destruct (kept_number x' H') as (i' & y1' & Ei' & Ey' & Eo' & _).
  assert (y1 = y) as -> by congruence. assert (y1' = y) as -> by congruence. assert (i = i') as -> by (eapply NoDup_zget; [exact same_nodup|exact Ey|exact Ey']). congruence.
Qed.
End numbers.

(** ** Two lists of rows put together *)
Lemma join_spec {A} deg n r first (prods same : list A) : renumbers n r -> 0 <= nnew r -> 0 <= deg -> zlen prods = zlen (prods2new r) * deg -> zlen same = zlen (same2old r) * deg ->
  exists l, join deg r first prods same = Ok l /\ zlen l = nnew r * deg /\
  (forall i e' w, zget (same2new r) i = Ok e' -> 0 <= w < deg -> exists x, zget same (i * deg + w) = Ok x /\ zget l (e' * deg + w) = Ok x) /\
  (forall p e' w, zget (prods2new r) p = Ok e' -> 0 <= w < deg -> exists x, zget prods (p * deg + w) = Ok x /\ zget l (e' * deg + w) = Ok x).
Proof.
  intros R Hn Hd Lp Ls. unfold join. rewrite (total_eq n r R Hn). rewrite blank_ok by nia. cbn [bind]. set (w0 := repeat _ _). assert (zlen w0 = nnew r * deg) as L0 by (unfold w0; rewrite zlen_repeat; nia).
  assert (forall l (w : list (option A)), zlen w = nnew r * deg -> (forall x, In x l -> 0 <= x < nnew r) -> maps_into l w deg) as MI by (intros l w Lw H b Hb; apply H in Hb; split; [lia|]; rewrite Lw; nia).
  assert (forall x, In x (same2new r) -> 0 <= x < nnew r) as Bs by (intros x Hx; apply (new_iff n r R); auto). assert (forall x, In x (prods2new r) -> 0 <= x < nnew r) as Bp by (intros x Hx; apply (new_iff n r R); auto).
  assert (exists w, (if first then w <- map_into prods (prods2new r) w0 deg ;; map_into same (same2new r) w deg else w <- map_into same (same2new r) w0 deg ;; map_into prods (prods2new r) w deg) = Ok w /\ zlen w = nnew r * deg /\
    (forall i e' j, zget (same2new r) i = Ok e' -> 0 <= j < deg -> exists x, zget same (i * deg + j) = Ok x /\ zget w (e' * deg + j) = Ok (Some x)) /\
    (forall p e' j, zget (prods2new r) p = Ok e' -> 0 <= j < deg -> exists x, zget prods (p * deg + j) = Ok x /\ zget w (e' * deg + j) = Ok (Some x))) as (w & Ew & Lw & Gs & Gp).
  { rewrite <- (rn_len n r R) in Ls. destruct first.
    - destruct (map_into_spec prods (prods2new r) w0 deg Hd Lp (prods_nodup n r R) (MI _ _ L0 Bp)) as (w1 & E1 & L1 & G1 & K1). rewrite E1. cbn [bind].
      destruct (map_into_spec same (same2new r) w1 deg Hd Ls (same_nodup n r R) (MI _ _ (eq_trans L1 L0) Bs)) as (w2 & E2 & L2 & G2 & K2). rewrite E2. exists w2. split; [reflexivity|]. split; [lia|]. split; [exact G2|].
      intros p e' j Ep Hj. destruct (G1 p e' j Ep Hj) as (x & Ex & Ex'). exists x. split; [exact Ex|]. rewrite K2; [exact Ex'| |exact Hj]. intros I. eapply (apart n r R); [exact I|eapply zget_In, Ep].
    - destruct (map_into_spec same (same2new r) w0 deg Hd Ls (same_nodup n r R) (MI _ _ L0 Bs)) as (w1 & E1 & L1 & G1 & K1). rewrite E1. cbn [bind].
      destruct (map_into_spec prods (prods2new r) w1 deg Hd Lp (prods_nodup n r R) (MI _ _ (eq_trans L1 L0) Bp)) as (w2 & E2 & L2 & G2 & K2). rewrite E2. exists w2. split; [reflexivity|]. split; [lia|]. split; [|exact G2].
      intros p e' j Ep Hj. destruct (G1 p e' j Ep Hj) as (x & Ex & Ex'). exists x. split; [exact Ex|]. rewrite K2; [exact Ex'| |exact Hj]. intros I. eapply (apart n r R); [eapply zget_In, Ep|exact I]. }
  rewrite Ew. cbn [bind]. destruct (freeze_blocks deg (nnew r) w Hn Hd Lw) as (l & El & Ll & Gl).
  { intros a j Ha Hj. apply (new_iff n r R) in Ha as [Ha|Ha]; apply In_zget in Ha as (i & Ei); [destruct (Gs i a j Ei Hj) as (x & _ & Ex)|destruct (Gp i a j Ei Hj) as (x & _ & Ex)]; eauto. }
  exists l. split; [exact El|]. split; [exact Ll|]. split; [intros i e' j Ei Hj; destruct (Gs i e' j Ei Hj) as (x & Ex & Ex')|intros i e' j Ei Hj; destruct (Gp i e' j Ei Hj) as (x & Ex & Ex')]; exists x; (split; [exact Ex|apply Gl, Ex']).
Qed.

(** ** The change *)
Section change.
Context (T : topology) (HT : valid_topology T) (r : Z -> numbering) (PV : Z -> list Z) (HF : fits T r PV) (HN : forall d, 0 <= d <= t_dim T -> 0 <= nnew (r d)).
Local Notation F := (t_family T).
Local Notation D := (t_dim T).
Local Notation maps := (fun d => same2old (r d)).

Lemma same_rows d l deg ab : 0 <= d <= D -> 0 <= l <= D -> 0 <= deg -> zlen ab = t_nents T d * deg ->
  (forall e w s, In e (same2old (r d)) -> 0 <= w < deg -> zget ab (e * deg + w) = Ok s -> In s (same2old (r l))) ->
  exists x y, unmap (same2old (r d)) ab deg = Ok x /\ compound_maps x (old2new (r l)) = Ok y /\ zlen y = zlen (same2old (r d)) * deg /\
    forall i e w, zget (same2old (r d)) i = Ok e -> 0 <= w < deg -> exists s s', zget ab (e * deg + w) = Ok s /\ zget y (i * deg + w) = Ok s' /\ zget (old2new (r l)) s = Ok s'.
Proof.
  intros Hd Hl Hg HL HC. pose proof (f_keep T r PV HF) as HP. pose proof (f_numbers T r PV HF l Hl) as Rl.
  assert (maps_into (same2old (r d)) ab deg) as MI. { intros b Hb. apply (proj1 HP d Hd) in Hb. split; [lia|]. rewrite HL. nia. }
  destruct (unmap_spec (same2old (r d)) ab deg Hg MI) as (x & Ex & Lx & Rx). exists x.
  assert (forall b, In b x -> In b (same2old (r l))) as Bx.
  { intros b Hb. apply In_zget in Hb as (i & Ei). pose proof (zget_bounds _ _ _ Ei) as B. rewrite Lx in B. assert (0 < deg) as Hg' by (destruct (Z.eq_dec deg 0) as [E0|E0]; [rewrite E0, Z.mul_0_r in B; lia|lia]). pose proof (Z.div_mod i deg ltac:(lia)). pose proof (Z.mod_pos_bound i deg Hg').
    assert (0 <= i / deg < zlen (same2old (r d))) as Q by (split; [apply Z.div_pos; lia|apply Z.div_lt_upper_bound; lia]). destruct (zget_in_range (same2old (r d)) (i / deg) Q) as (e & Ee).
    pose proof (Rx (i / deg) e (i mod deg) Ee ltac:(lia)) as Rr. replace (i / deg * deg + i mod deg) with i in Rr by lia. rewrite Ei in Rr. symmetry in Rr. eapply HC; [eapply zget_In; exact Ee| |exact Rr]. lia. }
  destruct (compound_maps_spec x (old2new (r l))) as (y & Ey & Ly & Ry). { intros b Hb. rewrite (rn_olds _ _ Rl). apply (proj1 HP l Hl), Bx, Hb. }
  exists y. split; [exact Ex|]. split; [exact Ey|]. split; [lia|]. intros i e w Ee Hw.
  pose proof (proj2 (proj1 HP d Hd) e (zget_In _ _ _ Ee)) as Be. destruct (zget_in_range ab (e * deg + w) ltac:(nia)) as (s & Es). destruct (kept_number _ _ Rl s (HC e w s (zget_In _ _ _ Ee) Hw Es)) as (_ & s' & _ & _ & Es' & _).
  exists s, s'. split; [exact Es|]. split; [|exact Es']. rewrite (Ry _ s); [exact Es'|]. rewrite (Rx i e w Ee Hw). exact Es.
Qed.

(** the vertices of the new entities *)
Definition V (d : Z) : list Z :=
  match (x <- unmap (same2old (r d)) (t_verts T d) (element_degree F d 0) ;; y <- compound_maps x (old2new (r 0)) ;; join (element_degree F d 0) (r d) true (PV d) y) with Ok l => l | _ => [] end.
Lemma V_ok d : 1 <= d <= D -> exists x y, unmap (same2old (r d)) (t_verts T d) (element_degree F d 0) = Ok x /\ compound_maps x (old2new (r 0)) = Ok y /\ join (element_degree F d 0) (r d) true (PV d) y = Ok (V d) /\
  zlen (V d) = nnew (r d) * element_degree F d 0 /\ forall e' row', row_is (element_degree F d 0) (V d) e' row' <-> new_row T r PV d e' row'.
Proof.
  intros Hd. pose proof (v_dim T HT) as HD. destruct (v_verts T HT d Hd) as (LV & _). pose proof (degree_pos F d 0 ltac:(lia) ltac:(lia)) as P. pose proof (f_keep T r PV HF) as HP.
  pose proof (f_numbers T r PV HF d ltac:(lia)) as Rd. pose proof (f_numbers T r PV HF 0 ltac:(lia)) as R0. destruct (f_verts T r PV HF d Hd) as (LP & _).
  destruct (same_rows d 0 (element_degree F d 0) (t_verts T d) ltac:(lia) ltac:(lia) ltac:(lia) LV) as (x & y & Ex & Ey & Ly & Gy). { intros e w s He Hw Es. exact (verts_kept T HT maps HP (Z.to_nat d) d ltac:(lia) Hd e w s He Hw Es). }
  destruct (join_spec _ _ (r d) true (PV d) y Rd (HN d ltac:(lia)) (Z.lt_le_incl _ _ P) LP Ly) as (l & El & Ll & Gs & Gp). exists x, y. split; [exact Ex|]. split; [exact Ey|].
  assert (V d = l) as EV by (unfold V; rewrite Ex; cbn [bind]; rewrite Ey; cbn [bind]; rewrite El; reflexivity). rewrite EV. split; [exact El|]. split; [exact Ll|].
  assert (forall e' row', new_row T r PV d e' row' -> row_is (element_degree F d 0) l e' row') as K.
  { intros e' row' [(e & row & He & Ee & Rr & F2)|(p & Ep & Rr)].
    - destruct (kept_number _ _ Rd e He) as (i & e1 & Ei & Ei' & Eo & _). assert (e1 = e') as -> by congruence. assert (zlen row' = element_degree F d 0) as Lr by (rewrite <- (proj1 Rr); symmetry; unfold zlen; f_equal; exact (Forall2_len _ _ _ F2)).
      split; [exact Lr|]. intros j Hj. destruct (Gs i e' j Ei' Hj) as (v' & Q1 & Q2). destruct (Gy i e j Ei Hj) as (s & s' & Q3 & Q4 & Q5). exists v'. split; [exact Q2|]. assert (s' = v') as -> by congruence.
      rewrite (row_zget _ _ _ _ _ Rr Hj) in Q3. destruct (zget_in_range row' j ltac:(lia)) as (v2 & Ev2). pose proof (Forall2_at _ _ _ F2 j s v2 Q3 Ev2). congruence.
    - split; [exact (proj1 Rr)|]. intros j Hj. destruct (Gp p e' j Ep Hj) as (v' & Q1 & Q2). exists v'. split; [exact Q2|]. rewrite <- (row_zget _ _ _ _ _ Rr Hj). exact Q1. }
  intros e' row'. split; [|apply K]. intros Rr'. pose proof (row_is_range _ _ _ _ _ P Ll Rr') as B. apply (new_iff _ _ Rd) in B as [B|B]; apply In_zget in B as (i & Ei).
  - left. pose proof (zget_bounds _ _ _ Ei) as Bi. rewrite (rn_len _ _ Rd) in Bi. destruct (zget_in_range _ _ Bi) as (e & Ee). pose proof (proj2 (proj1 HP d ltac:(lia)) e (zget_In _ _ _ Ee)) as Be.
    pose proof (row_is_tuple (element_degree F d 0) (t_verts T d) (t_nents T d) e ltac:(lia) LV Be) as Rr. set (row := tuple _ _ _) in *. exists e, row. split; [eapply zget_In, Ee|]. split; [exact (rn_same _ _ Rd i e e' Ee Ei)|]. split; [exact Rr|].
    apply Forall2_of; [rewrite (proj1 Rr), (proj1 Rr'); reflexivity|]. intros j v v' Ev Ev'. pose proof (zget_bounds _ _ _ Ev) as Bj. rewrite (proj1 Rr) in Bj. destruct (Gs i e' j Ei Bj) as (x1 & Q1 & Q2). destruct (Gy i e j Ee Bj) as (s & s' & Q3 & Q4 & Q5).
    rewrite (row_zget _ _ _ _ _ Rr' Bj) in Q2. rewrite (row_zget _ _ _ _ _ Rr Bj) in Q3. congruence.
  - right. pose proof (zget_bounds _ _ _ Ei) as Bi. pose proof (row_is_tuple (element_degree F d 0) (PV d) _ i ltac:(lia) LP Bi) as Rr. exists i. split; [exact Ei|].
    assert (row' = tuple (PV d) (element_degree F d 0) i) as ->; [|exact Rr]. apply (row_is_unique _ _ _ _ _ Rr'). apply K. right. eauto.
Qed.
Lemma kept_verts d e row : 1 <= d <= D -> In e (same2old (r d)) -> row_is (element_degree F d 0) (t_verts T d) e row -> forall v, In v row -> In v (same2old (r 0)).
Proof.
  intros Hd He R v Hv. apply In_zget in Hv as (j & Ej). pose proof (zget_bounds _ _ _ Ej) as Bj. rewrite (proj1 R) in Bj. rewrite <- (row_zget _ _ _ _ _ R Bj) in Ej.
  exact (verts_kept T HT maps (f_keep T r PV HF) (Z.to_nat d) d ltac:(lia) Hd e j v He Bj Ej).
Qed.
Lemma V_lists d : 1 <= d <= D -> lists_ok F d (V d) (nnew (r d)) (nnew (r 0)).
Proof.
  intros Hd. pose proof (v_dim T HT) as HD. destruct (V_ok d Hd) as (x & y & _ & _ & _ & L & K). pose proof (degree_pos F d 0 ltac:(lia) ltac:(lia)) as P. split; [exact L|]. destruct (f_verts T r PV HF d Hd) as (LP & DP & BP). destruct (v_verts T HT d Hd) as (LV & DV & _).
  pose proof (f_numbers T r PV HF 0 ltac:(lia)) as R0. split.
  - intros e' row' Rr. apply K in Rr as [(e & row & He & Ee & Rr & F2)|(p & Ep & Rr)]; [|exact (DP p row' Rr)]. pose proof (DV e row Rr) as ND. pose proof (kept_verts d e row Hd He Rr) as KV. clear - ND F2 KV R0.
    induction F2 as [|v v' row row' Hv F2 IH]; [constructor|]. inversion ND as [|? ? Nv Nr]; subst. constructor; [|apply IH; [exact Nr|intros z Hz; apply KV; right; exact Hz]]. intros I. apply Nv.
    assert (exists u, In u row /\ zget (old2new (r 0)) u = Ok v') as (u & Iu & Eu). { clear - I F2. induction F2 as [|a b la lb H F2 IH]; [destruct I|]. destruct I as [->|I]; [exists a; split; [left; reflexivity|exact H]|destruct (IH I) as (u & Iu & Eu); exists u; split; [right; exact Iu|exact Eu]]. }
    assert (v = u) as ->; [|exact Iu]. eapply (kept_apart _ _ R0); [apply KV; left; reflexivity|apply KV; right; exact Iu|exact Hv|exact Eu].
  - intros v Hv. destruct (In_row _ _ _ v P L Hv) as (e' & row' & Rr & _ & I). apply K in Rr as [(e & row & He & Ee & Rr & F2)|(p & Ep & Rr)].
    + assert (exists u, In u row /\ zget (old2new (r 0)) u = Ok v) as (u & Iu & Eu). { clear - I F2. induction F2 as [|a b la lb H F2 IH]; [destruct I|]. destruct I as [->|I]; [exists a; split; [left; reflexivity|exact H]|destruct (IH I) as (u & Iu & Eu); exists u; split; [right; exact Iu|exact Eu]]. }
      destruct (kept_number _ _ R0 u (kept_verts d e row Hd He Rr u Iu)) as (_ & y1 & _ & _ & Ey & B). assert (y1 = v) as -> by congruence. exact B.
    + apply BP. apply In_zget in I as (j & Ej). pose proof (zget_bounds _ _ _ Ej) as Bj. rewrite (proj1 Rr) in Bj. rewrite <- (row_zget _ _ _ _ _ Rr Bj) in Ej. eapply zget_In, Ej.
Qed.
End change.
