(** Swapping edges of a 3D mesh: tets around the keys. *)
From Coq Require Import String Permutation Sorted.
From Verif Require Import Prelude M_Array P_Array M_Par M_Scan S_Scan P_Scan P_Fan S_Sort M_Sort M_Map S_Map P_Map P_Map2 M_Template S_Template P_Template M_Align S_Align P_Align M_Graph S_Graph P_Graph M_Unique S_Unique P_Unique M_Adj S_Adj P_Adj S_Transit P_Transit S_Across P_Across
  M_Match S_Match P_Match M_Tags M_MeshAdj S_MeshAdj P_MeshAdj P_MeshAdj2 P_MeshAdj3 M_Build S_Build P_Build P_Box S_Unmap P_Unmap P_Mark P_Coarsen P_Mark
  M_Modify S_Modify P_Modify P_Modify2 M_SwapTables M_Swap3d S_Swap3d S_SwapMesh P_SwapTables P_Loop P_SwapVolume P_SwapKey S_Coarsen M_Refine S_Refine P_Refine P_SwapTopo M_RefineMesh S_RefineMesh S_Rebuild P_Rebuild P_RefineMesh1 P_RefineMesh2 P_RefineMesh3 P_RefineMesh4 P_RefineMesh5 S_Recut.
Local Open Scope Z_scope.

Lemma four_perm (a b c d : Z) t : zlen t = 4 -> NoDup [a; b; c; d] -> (forall x, In x [a; b; c; d] -> In x t) -> Permutation t [a; b; c; d].
Proof. intros L N I. apply Permutation_sym, NoDup_Permutation_bis; [exact N|unfold zlen in L; cbn; lia|exact I]. Qed.
Lemma orient_perm a b c d t : NoDup [a; b; c; d] -> same_orientation [a; b; c; d] t -> Permutation t [a; b; c; d].
Proof. intros N H. apply four_perm; [|exact N|]; cbn [same_orientation In] in H; repeat (destruct H as [<-|H]; [first [reflexivity|intros x Hx; cbn [In] in *; tauto]|]); contradiction. Qed.
Lemma F2_choice {A B} (P : A -> B -> Prop) l : (forall x, In x l -> exists y, P x y) -> exists m, Forall2 P l m.
Proof. induction l as [|x l IH]; intros H; [exists []; constructor|]. destruct (H x (or_introl eq_refl)) as (y & Hy). destruct IH as (m & F); [intros; apply H; right; assumption|]. exists (y :: m). constructor; assumption. Qed.
Lemma F2_nodup {A B} (P : A -> B -> Prop) l m : Forall2 P l m -> NoDup l -> (forall x x' y, P x y -> P x' y -> x = x') -> NoDup m.
Proof.
  intros F N J. induction F as [|x y l m H F IH]; [constructor|]. apply NoDup_cons_iff in N as [Nx N]. constructor; [|apply IH, N]. intros I. apply Nx. clear - F I H J. induction F as [|x' y' l m H' F IH]; [contradiction|]. destruct I as [->|I]; [left; apply (J x' x y); assumption|right; apply IH, I].
Qed.
Lemma F2_map {A B C} (P : A -> C -> Prop) (g : B -> C) l m : Forall2 (fun a b => P a (g b)) l m -> Forall2 P l (map g m).
Proof. induction 1; constructor; assumption. Qed.
Lemma pick_on {A} (P : Z -> A -> Prop) (a0 : A) keys : (forall k, In k keys -> exists a, P k a) -> exists f, forall k, In k keys -> P k (f k).
Proof.
  induction keys as [|k l IH]; intros H; [exists (fun _ => a0); intros k []|]. destruct (H k (or_introl eq_refl)) as (a & Ha). destruct IH as (f & Hf); [intros; apply H; right; assumption|].
  exists (fun x => if x =? k then a else f x). intros x [<-|I]; [rewrite Z.eqb_refl; exact Ha|]. destruct (Z.eqb_spec x k) as [->|]; [exact Ha|apply Hf, I].
Qed.
Lemma sorted_head (l : list Z) x : StronglySorted Z.le l -> In x l -> exists h t, l = h :: t /\ h <= x.
Proof. intros S I. destruct l as [|h t]; [contradiction|]. exists h, t. split; [reflexivity|]. destruct I as [->|I]; [lia|]. inversion S as [|? ? _ F]; subst. rewrite Forall_forall in F. apply F, I. Qed.
Lemma div_sorted w l : 0 < w -> StronglySorted Z.lt l -> StronglySorted Z.le (map (fun u => u / w) l).
Proof. intros Hw S. induction S as [|x l S IH F]; [constructor|]. cbn. constructor; [exact IH|]. rewrite Forall_forall in *. intros y Hy. apply in_map_iff in Hy as (z & <- & Hz). apply Z.div_le_mono; [exact Hw|]. specialize (F z Hz). lia. Qed.
Lemma zget_map_head {A B} (f : A -> B) l x : zget l 0 = Ok x -> zget (map f l) 0 = Ok (f x).
Proof. intros E. rewrite zget_map, E. reflexivity. Qed.

Section rings.
Context (T : topology) (HT : valid_topology T) (HS : simplicial T).
Context (D3 : t_dim T = 3).
Lemma ring_four k e0 e1 l x y : ring_around T k e0 e1 l -> In (x, y) (cycle l) -> NoDup [e0; e1; x; y].
Proof.
  intros (_ & N & Hn & _) I. apply NoDup_cons_iff in N as [N0 N]. apply NoDup_cons_iff in N as [N1 N]. destruct (cycle_ne l (x, y) N ltac:(lia) I) as (Hxy & Ix & Iy). cbn [fst snd] in *. cbn [In] in N0. repeat constructor; cbn [In]; intuition congruence.
Qed.
Lemma ring_has k e0 e1 l x y t tv : ring_around T k e0 e1 l -> In (x, y) (cycle l) -> ent_verts T 3 t tv -> same_orientation [e0; e1; x; y] tv -> has_edge T 3 t k /\ Permutation tv [e0; e1; x; y].
Proof.
  intros H I R S. pose proof (orient_perm e0 e1 x y tv (ring_four k e0 e1 l x y H I) S) as P. split; [|exact P]. exists tv, e0, e1. split; [exact R|]. split; [apply H|]. split; apply (Permutation_in _ (Permutation_sym P)); cbn; tauto.
Qed.
Lemma first_in {A} (x y : Z) (l : list Z) (f : A) : In (x, y) (cycle (x :: y :: l)).
Proof. cbn. left. reflexivity. Qed.
Lemma ring_unique k e0 e1 l e0' e1' l' : ring_around T k e0 e1 l -> ring_around T k e0' e1' l' -> e0 = e0' /\ e1 = e1' /\ l = l'.
Proof.
  intros H H'. pose proof H as (R & N & Hn & A & B & t & tv & x & y & m & El & Rt & St & Ht). pose proof H' as (R' & N' & Hn' & A' & B' & t' & tv' & x' & y' & m' & El' & Rt' & St' & Ht'). pose proof (ent_unique T 1 k _ _ ltac:(lia) R R') as E. injection E as <- <-. split; [reflexivity|]. split; [reflexivity|].
  assert (In (x, y) (cycle l)) as I by (rewrite El; apply (first_in x y m tt)). assert (In (x', y') (cycle l')) as I' by (rewrite El'; apply (first_in x' y' m' tt)).
  assert (t = t') as <-. { pose proof (Ht t' (proj1 (ring_has _ _ _ _ _ _ _ _ H' I' Rt' St'))). pose proof (Ht' t (proj1 (ring_has _ _ _ _ _ _ _ _ H I Rt St))). lia. }
  pose proof (ent_unique T 3 t _ _ ltac:(lia) Rt Rt') as <-. destruct (same_orientation_pair e0 e1 x y x' y' tv (ring_four _ _ _ _ _ _ H I) St St') as [<- <-].
  apply NoDup_cons_iff in N as [N0 N]. apply NoDup_cons_iff in N as [N1 N]. apply NoDup_cons_iff in N' as [N0' N']. apply NoDup_cons_iff in N' as [N1' N'].
  assert (forall q1 q2, In (q1, q2) (cycle l) -> In (q1, q2) (cycle l')) as C1.
  { intros q1 q2 Iq. destruct (B q1 q2 Iq) as (u & uv & Ru & Su). destruct (ring_has _ _ _ _ _ _ _ _ H Iq Ru Su) as [Hu _]. destruct (A' u Hu) as (p1 & p2 & uv' & Ip & Ru' & Su'). pose proof (ent_unique T 3 u _ _ ltac:(lia) Ru Ru') as <-. destruct (same_orientation_pair e0 e1 q1 q2 p1 p2 uv (ring_four _ _ _ _ _ _ H Iq) Su Su') as [<- <-]. exact Ip. }
  assert (forall q1 q2, In (q1, q2) (cycle l') -> In (q1, q2) (cycle l)) as C2.
  { intros q1 q2 Iq. destruct (B' q1 q2 Iq) as (u & uv & Ru & Su). destruct (ring_has _ _ _ _ _ _ _ _ H' Iq Ru Su) as [Hu _]. destruct (A u Hu) as (p1 & p2 & uv' & Ip & Ru' & Su'). pose proof (ent_unique T 3 u _ _ ltac:(lia) Ru Ru') as <-. destruct (same_orientation_pair e0 e1 q1 q2 p1 p2 uv (ring_four _ _ _ _ _ _ H' Iq) Su Su') as [<- <-]. exact Ip. }
  assert (Permutation (cycle l) (cycle l')) as P. { apply NoDup_Permutation; [apply (NoDup_map_inv fst); rewrite cycle_fst; exact N|apply (NoDup_map_inv fst); rewrite cycle_fst; exact N'|]. intros [q1 q2]. split; auto. }
  assert (zlen l = zlen l') as L by (apply Permutation_length in P; rewrite !cycle_length in P; unfold zlen; lia).
  assert (exists r, cycle l = (x, y) :: r) as (r & Er) by (rewrite El; cbn; eauto). assert (exists r', cycle l' = (x, y) :: r') as (r' & Er') by (rewrite El'; cbn; eauto).
  pose proof (order_all (zlen l) l (cycle l) ltac:(lia) eq_refl N (Permutation_refl _) ltac:(exists (x, y), r, r; auto)) as O1. pose proof (order_all (zlen l) l' (cycle l) ltac:(lia) L N' P ltac:(exists (x, y), r, r'; auto)) as O2. assert (cycle l = cycle l') as E by congruence. rewrite <- (cycle_fst l), <- (cycle_fst l'), E. reflexivity.
Qed.

(** what the code reads *)
Context (old : amesh) (HR : ready T old).
Context (HA : forall a b, 0 <= a <= t_dim T -> 0 <= b <= t_dim T -> a <> b -> P_MeshAdj.val T a b = Ok (kept_adj old a b)).
Lemma ring_found k e0 e1 l codes : ring_around T k e0 e1 l -> adj_codes (kept_adj old 1 3) = Some codes ->
  (exists tets, cavity (adj_a2ab (kept_adj old 1 3)) (adj_ab2b (kept_adj old 1 3)) codes (t_verts T 1) (t_verts T 3) k e0 e1 l tets) /\
  find_loop (adj_a2ab (kept_adj old 1 3)) (adj_ab2b (kept_adj old 1 3)) codes (t_verts T 1) (t_verts T 3) k = Ok (mk_loop (zlen l) [e0; e1] l).
Proof.
  intros H EC. pose proof H as (R & N & Hn & A & B & t & tv & x & y & m & El & Rt & St & Ht).
  destruct (edge_ups T HT HS old HA 3 ltac:(lia)) as (ab & dcodes & E & W & L & NC & U). pose proof (ent_range T HT HS 1 k _ ltac:(lia) R) as Hk. destruct (U k Hk) as [U1 U2]. destruct (row_ends T old HA k e0 e1 R) as [Ea Eb].
  destruct (up_ok T HT HS old HA 3 ltac:(lia)) as [[_ (uc & Euc & UO)] _]. assert (uc = codes) as -> by congruence. destruct (UO k e0 e1 ltac:(lia) Ea Eb) as [_ UC].
  pose proof U1 as U1'. apply targets_split in U1 as (lo & hi & G1 & G2 & G3). cbn [a2ab ab2b] in *. change (simplex_degree 3 1) with 6 in *.
  set (ts := map (fun v => v / 6) (uses_of ab k)) in *.
  assert (forall e, In e ts <-> has_edge T 3 e k) as IT by (intros e; apply (uses_has T HT HS old HA 3 ab dcodes k e ltac:(lia) E)).
  assert (NoDup ts) as NT. { pose proof (doms_nodup T HT HS old HA 3 k ltac:(lia)) as ND. unfold doms in ND. change (3 =? 1) with false in ND. rewrite E in ND. exact ND. }
  assert (StronglySorted Z.le ts) as ST by (apply div_sorted; [lia|apply uses_of_sorted]).
  assert (In (x, y) (cycle l)) as I0 by (rewrite El; apply (first_in x y m tt)).
  assert (forall e row, ent_verts T 3 e row -> verts_of 4 (t_verts T 3) e = Ok row) as VO.
  { intros e row Re. apply ent_high in Re; [|lia]. assert (row_is 4 (t_verts T 3) e row) as [Lr Re'] by exact Re. clear Re. rename Re' into Re. unfold verts_of. change (zrange 4) with [0; 1; 2; 3]. cbn [mapM]. destruct (Re 0 ltac:(lia)) as (x0 & X0 & Y0). destruct (Re 1 ltac:(lia)) as (x1 & X1 & Y1). destruct (Re 2 ltac:(lia)) as (x2 & X2 & Y2). destruct (Re 3 ltac:(lia)) as (x3 & X3 & Y3). rewrite X0, X1, X2, X3. cbn [bind]. f_equal.
    destruct row as [|z0 [|z1 [|z2 [|z3 [|z4 row]]]]]; unfold zlen in Lr; cbn [length] in Lr; try lia. cbn in Y0, Y1, Y2, Y3. injection Y0 as <-. injection Y1 as <-. injection Y2 as <-. injection Y3 as <-. reflexivity. }
  destruct (F2_choice (fun e (p : (Z * Z) * list Z) => In (fst p) (cycle l) /\ ent_verts T 3 e (snd p) /\ same_orientation [e0; e1; fst (fst p); snd (fst p)] (snd p)) ts) as (M & FM).
  { intros e Ie. apply IT in Ie. destruct (A e Ie) as (p & q & row & I & Re & Se). exists ((p, q), row). auto. }
  set (tets := map snd M). set (pairs := map fst M).
  assert (Forall2 (fun e row => ent_verts T 3 e row) ts tets) as FT by (apply F2_map; eapply Forall2_weaken; [|exact FM]; cbn; tauto).
  assert (mapM (fun u => t <- zget (adj_ab2b (kept_adj old 1 3)) u ;; verts_of 4 (t_verts T 3) t) (zfromto lo hi) = Ok tets) as ET.
  { apply mapM_ok. apply mapM_ok in G3. assert (forall us ts' rows, Forall2 (fun u t => zget (adj_ab2b (kept_adj old 1 3)) u = Ok t) us ts' -> Forall2 (fun e row => ent_verts T 3 e row) ts' rows -> Forall2 (fun u row => (t <- zget (adj_ab2b (kept_adj old 1 3)) u ;; verts_of 4 (t_verts T 3) t) = Ok row) us rows) as K.
    { clear - VO. intros us ts' rows H1. revert rows. induction H1 as [|u e us ts' Hu _ IH]; intros rows H2; inversion H2 as [|? row ? rows' Hr Hrs]; subst; constructor; [rewrite Hu; apply VO, Hr|apply IH, Hrs]. }
    exact (K _ _ _ G3 FT). }
  assert (Forall2 (fun t p => same_orientation [e0; e1; fst p; snd p] t) tets pairs) as FS.
  { unfold tets, pairs. clear - FM. induction FM as [|e p es ps (_ & _ & H) _ IH]; [constructor|]. constructor; assumption. }
  assert (Permutation pairs (cycle l)) as PP.
  { apply NoDup_Permutation.
    - apply (F2_nodup (fun e p => exists row, In p (cycle l) /\ ent_verts T 3 e row /\ same_orientation [e0; e1; fst p; snd p] row) ts); [|exact NT|].
      + apply F2_map. eapply Forall2_weaken; [|exact FM]. intros e p (H1 & H2 & H3). exists (snd p). auto.
      + intros e e' [p q] (row & I & Re & Se) (row' & _ & Re' & Se'). cbn [fst snd] in *. apply (P_RefineMesh1.once T HS 3 e e' row row'); [lia|exact Re|exact Re'|]. apply (Permutation_trans (proj2 (ring_has _ _ _ _ _ _ _ _ H I Re Se))), Permutation_sym, (proj2 (ring_has _ _ _ _ _ _ _ _ H I Re' Se')).
    - apply (NoDup_map_inv fst). rewrite cycle_fst. apply NoDup_cons_iff in N as [_ N]. apply NoDup_cons_iff in N as [_ N]. exact N.
    - intros [p q]. split.
      + intros I. apply in_map_iff in I as ([p' row] & E' & I). cbn in E'. subst p'. clear - FM I. induction FM as [|e p' es ps (H & _) _ IH]; [contradiction|]. destruct I as [->|I]; [exact H|apply IH, I].
      + intros I. destruct (B p q I) as (e & row & Re & Se). destruct (ring_has _ _ _ _ _ _ _ _ H I Re Se) as [He _]. apply IT in He. assert (exists w, In w M /\ In (fst w) (cycle l) /\ ent_verts T 3 e (snd w) /\ same_orientation [e0; e1; fst (fst w); snd (fst w)] (snd w)) as ([[p' q'] row'] & Iw & I' & Re' & Se').
        { clear - FM He. induction FM as [|e' p' es ps HH _ IH]; [contradiction|]. destruct He as [->|He]; [exists p'; split; [left; reflexivity|exact HH]|]. destruct (IH He) as (w & Iw & K). exists w. split; [right; exact Iw|exact K]. }
        cbn [fst snd] in *. pose proof (ent_unique T 3 e _ _ ltac:(lia) Re Re') as <-. destruct (same_orientation_pair e0 e1 p q p' q' row (ring_four _ _ _ _ _ _ H I) Se Se') as [<- <-]. apply in_map_iff. exists ((p, q), row). auto. }
  assert (zlen tets = hi - lo /\ zlen tets = zlen l) as [L1 L2].
  { split; [pose proof (mapM_length _ _ _ ET) as Q; pose proof (Permutation_length PP) as Q2; rewrite cycle_length in Q2; pose proof (Forall2_len _ _ _ FS) as Q3; unfold zfromto in Q; rewrite map_length, zrange_length in Q; unfold zlen in *; lia|]. pose proof (Permutation_length PP) as Q2. rewrite cycle_length in Q2. pose proof (Forall2_len _ _ _ FS) as Q3. unfold zlen. congruence. }
  assert (ring_of_tets e0 e1 l tets) as RT by (split; [exact N|exists pairs; auto]).
  assert (forall i row, zget tets i = Ok row -> exists code, zget codes (lo + i) = Ok code /\ code_aligns e0 e1 row (code_which_down code) (code_rotation code) (simplex_down_template 3 1)) as CA.
  { intros i row Er. pose proof (zget_bounds _ _ _ Er) as Bi. destruct (UC (lo + i)) as (c & code & Ec & Ecode & Hw & Hrot & Q1 & Q2); [exists lo, hi; split; [exact G1|]; split; [exact G2|lia]|].
    assert (ent_verts T 3 c row) as Rc. { apply mapM_ok in G3. destruct (zget_in_range ts i) as (e & Ee); [pose proof (Forall2_len _ _ _ FT) as Q; unfold zlen in *; lia|]. pose proof (P_Rebuild.Forall2_at _ _ _ FT i e row Ee Er) as Re. assert (zget (zfromto lo hi) i = Ok (lo + i)) as Ez by (unfold zfromto; rewrite zget_map, zget_zrange by lia; reflexivity). pose proof (P_Rebuild.Forall2_at _ _ _ G3 i _ e Ez Ee) as Q. cbn beta in Q. assert (c = e) as -> by congruence. exact Re. }
    exists code. split; [exact Ecode|]. change (simplex_degree 3 1) with 6 in Hw. split; [exact Hw|]. split; [exact Hrot|].
    apply ent_high in Rc; [|lia]. change (3 + 1) with 4 in *. assert (forall w r, 0 <= w < 6 -> r = 0 \/ r = 1 -> 0 <= simplex_down_template 3 1 w r < 4) as Tb by (clear; intros w r Hw Hr; assert (w = 0 \/ w = 1 \/ w = 2 \/ w = 3 \/ w = 4 \/ w = 5) as [->|[->|[->|[->|[->| ->]]]]] by lia; destruct Hr as [->| ->]; vm_compute; split; congruence).
    assert (code_rotation code = 0 \/ code_rotation code = 1) as Hr by lia. rewrite (row_zget 4 _ _ row) in Q1, Q2 by (first [exact Rc|apply Tb; [exact Hw|destruct Hr as [->| ->]; cbn; auto]]). auto. }
  split; [exists tets, lo, hi; auto 10|].
  assert (exists ts', ts = t :: ts') as (ts' & Ets).
  { destruct (sorted_head ts t ST) as (h & r & Eh & Hh); [apply IT; eapply (ring_has _ _ _ _ _ _ _ _ H I0 Rt St)|]. assert (has_edge T 3 h k) as Hh' by (apply IT; rewrite Eh; left; reflexivity). pose proof (Ht h Hh'). assert (h = t) as -> by lia. eauto. }
  assert (zget tets 0 = Ok tv) as E0.
  { destruct (zget_in_range tets 0) as (row & Er); [lia|]. assert (zget ts 0 = Ok t) as Et by (rewrite Ets; reflexivity). pose proof (P_Rebuild.Forall2_at _ _ _ FT 0 t row Et Er) as Re. rewrite Er. f_equal. apply (ent_unique T 3 t); [lia|exact Re|exact Rt]. }
  replace (zlen l) with (hi - lo) by lia. apply (find_loop_first _ _ _ _ _ k lo hi e0 e1 l tets G1 G2 Ea Eb ET CA RT x y m tv); [unfold MAX_EDGE_SWAP; lia|exact El|exact E0|exact St].
Qed.
End rings.
