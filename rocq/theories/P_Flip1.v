(** Swapping edges of a 2D mesh: triangles around the keys. *)
From Coq Require Import String Permutation Sorted.
From Verif Require Import Prelude M_Array P_Array M_Par M_Scan S_Scan P_Scan P_Fan S_Sort M_Sort M_Map S_Map P_Map P_Map2 M_Template S_Template P_Template M_Align S_Align P_Align M_Graph S_Graph P_Graph M_Unique S_Unique P_Unique M_Adj S_Adj P_Adj S_Transit P_Transit S_Across P_Across
  M_Match S_Match P_Match M_Tags M_MeshAdj S_MeshAdj P_MeshAdj P_MeshAdj2 P_MeshAdj3 M_Build S_Build P_Build P_Box S_Unmap P_Unmap P_Mark P_Coarsen P_Mark
  M_Modify S_Modify P_Modify P_Modify2 S_Swap3d M_Swap2d S_Swap2d P_Swap2d S_Coarsen M_Refine S_Refine P_Refine P_SwapTopo M_RefineMesh S_RefineMesh S_Rebuild P_Rebuild P_RefineMesh1 P_RefineMesh2 P_RefineMesh3 P_RefineMesh4 P_RefineMesh5 S_Flip.
Local Open Scope Z_scope.

Lemma turn_perm a b c l : same_turn [a; b; c] l -> Permutation l [a; b; c].
Proof.
  intros [<-|[<-|[<-|[]]]]; [apply Permutation_refl| |].
  - apply (Permutation_app_comm [b; c] [a]).
  - apply (Permutation_app_comm [c] [a; b]).
Qed.
Lemma turn_third a b x y l : NoDup l -> same_turn [a; b; x] l -> same_turn [a; b; y] l -> x = y.
Proof.
  intros N [<-|[<-|[<-|[]]]] [E|[E|[E|[]]]]; injection E; intros; subst; try reflexivity; exfalso; inversion N as [|? ? N1 N2]; subst; inversion N2 as [|? ? N3 N4]; subst; cbn [In] in *; tauto.
Qed.
Lemma turn_back a b x y l : NoDup l -> same_turn [a; b; x] l -> same_turn [b; a; y] l -> False.
Proof.
  intros N [<-|[<-|[<-|[]]]] [E|[E|[E|[]]]]; injection E; intros; subst; inversion N as [|? ? N1 N2]; subst; inversion N2 as [|? ? N3 N4]; subst; cbn [In] in *; tauto.
Qed.
Lemma two_listed (l : list Z) t u : NoDup l -> t <> u -> (forall e, In e l <-> e = t \/ e = u) -> l = [t; u] \/ l = [u; t].
Proof.
  intros N Htu H. assert (Permutation l [t; u]) as P. { apply NoDup_Permutation; [exact N|repeat constructor; cbn; intuition congruence|]. intros e. rewrite H. cbn. intuition congruence. }
  apply Permutation_sym, Permutation_length_2_inv in P. tauto.
Qed.

Section diamonds.
Context (T : topology) (HT : valid_topology T) (HS : simplicial T).
Context (D2 : t_dim T = 2).
Lemma tri_row t row : triangle T t row -> exists tv, ent_verts T 2 t tv /\ same_turn row tv /\ NoDup tv.
Proof. intros (tv & R & S). exists tv. split; [exact R|]. split; [exact S|]. apply (ent_facts T HT HS 2 t tv ltac:(lia) R). Qed.
Lemma tri_nodup t a b c : triangle T t [a; b; c] -> NoDup [a; b; c].
Proof. intros H. destruct (tri_row t _ H) as (tv & _ & S & N). apply (Permutation_NoDup (turn_perm _ _ _ _ S) N). Qed.
Lemma dia_apart k a b x y t u : diamond T k a b x y t u -> t <> u /\ x <> y.
Proof.
  intros (_ & H1 & H2 & _). destruct (tri_row t _ H1) as (tv & R1 & S1 & N1). destruct (tri_row u _ H2) as (uv & R2 & S2 & N2). assert (t <> u) as Htu. { intros <-. pose proof (ent_unique T 2 t _ _ ltac:(lia) R1 R2) as <-. exact (turn_back a b x y tv N1 S1 S2). }
  split; [exact Htu|]. intros <-. apply Htu, (P_RefineMesh1.once T HS 2 t u tv uv); [lia|exact R1|exact R2|]. apply (Permutation_trans (turn_perm _ _ _ _ S1)), Permutation_sym, (Permutation_trans (turn_perm _ _ _ _ S2)), perm_swap.
Qed.
Lemma dia_nodup k a b x y t u : diamond T k a b x y t u -> NoDup [a; b; x; y].
Proof.
  intros H. destruct (dia_apart _ _ _ _ _ _ _ H) as [_ Hxy]. destruct H as (_ & H1 & H2 & _). apply tri_nodup in H1, H2. inversion H1 as [|? ? A1 H1']; subst. inversion H1' as [|? ? A2 _]; subst. inversion H2 as [|? ? A3 H2']; subst. inversion H2' as [|? ? A4 _]; subst. cbn [In] in *. repeat constructor; cbn [In]; intuition congruence.
Qed.
Lemma dia_has k a b x y t u : diamond T k a b x y t u -> has_edge T 2 t k /\ has_edge T 2 u k.
Proof.
  intros (R & H1 & H2 & _). destruct (tri_row t _ H1) as (tv & R1 & S1 & N1). destruct (tri_row u _ H2) as (uv & R2 & S2 & N2). apply turn_perm in S1, S2. split; [exists tv, a, b|exists uv, a, b]; (split; [assumption|]; split; [assumption|]); split; (eapply Permutation_in; [apply Permutation_sym; eassumption|cbn; tauto]).
Qed.
Lemma dia_unique k a b x y t u a' b' x' y' t' u' : diamond T k a b x y t u -> diamond T k a' b' x' y' t' u' -> a = a' /\ b = b' /\ x = x' /\ y = y' /\ t = t' /\ u = u'.
Proof.
  intros H H'. destruct (dia_has _ _ _ _ _ _ _ H') as [Ht Hu]. pose proof (dia_apart _ _ _ _ _ _ _ H') as [N' _]. pose proof (dia_apart _ _ _ _ _ _ _ H) as [N _]. destruct H as (R & H1 & H2 & H3). destruct H' as (R' & H1' & H2' & _). pose proof (ent_unique T 1 k _ _ ltac:(lia) R R') as E. injection E as <- <-.
  destruct (tri_row t _ H1) as (tv & R1 & S1 & N1). destruct (tri_row u _ H2) as (uv & R2 & S2 & N2). destruct (tri_row t' _ H1') as (tv' & R1' & S1' & N1'). destruct (tri_row u' _ H2') as (uv' & R2' & S2' & N2').
  destruct (H3 t' Ht) as [->| ->].
  - destruct (H3 u' Hu) as [->| ->]; [congruence|]. pose proof (ent_unique T 2 t _ _ ltac:(lia) R1 R1') as <-. pose proof (ent_unique T 2 u _ _ ltac:(lia) R2 R2') as <-. rewrite (turn_third a b x x' tv N1 S1 S1'), (turn_third b a y y' uv N2 S2 S2'). auto 10.
  - exfalso. pose proof (ent_unique T 2 u _ _ ltac:(lia) R2 R1') as <-. exact (turn_back b a y x' uv N2 S2 S1').
Qed.

(** what the code reads *)
Context (old : amesh) (HR : ready T old).
Context (HA : forall a b, 0 <= a <= t_dim T -> 0 <= b <= t_dim T -> a <> b -> P_MeshAdj.val T a b = Ok (kept_adj old a b)).
Lemma dia_sides k a b x y t u codes : diamond T k a b x y t u -> adj_codes (kept_adj old 1 2) = Some codes ->
  exists tris, two_sides (adj_a2ab (kept_adj old 1 2)) (adj_ab2b (kept_adj old 1 2)) codes (t_verts T 2) (t_verts T 1) k a b x y tris.
Proof.
  intros H EC. pose proof (dia_apart _ _ _ _ _ _ _ H) as [Htu _]. pose proof (dia_nodup _ _ _ _ _ _ _ H) as N4. pose proof (dia_has _ _ _ _ _ _ _ H) as [Ht Hu]. destruct H as (R & H1 & H2 & H3).
  destruct (edge_ups T HT HS old HA 2 ltac:(lia)) as (ab & dcodes & E & W & L & NC & U). pose proof (ent_range T HT HS 1 k _ ltac:(lia) R) as Hk. destruct (U k Hk) as [U1 U2]. destruct (row_ends T old HA k a b R) as [Ea Eb].
  destruct (up_ok T HT HS old HA 2 ltac:(lia)) as [[_ (uc & Euc & UO)] _]. assert (uc = codes) as -> by congruence. destruct (UO k a b ltac:(lia) Ea Eb) as [_ UC].
  pose proof U1 as U1'. apply targets_split in U1 as (lo & hi & G1 & G2 & G3). cbn [a2ab ab2b] in *.
  set (ts := map (fun v => v / simplex_degree 2 1) (uses_of ab k)) in *.
  assert (ts = [t; u] \/ ts = [u; t]) as Hts.
  { apply two_listed; [|exact Htu|].
    - pose proof (doms_nodup T HT HS old HA 2 k ltac:(lia)) as ND. unfold doms in ND. change (2 =? 1) with false in ND. rewrite E in ND. exact ND.
    - intros e. unfold ts. rewrite (uses_has T HT HS old HA 2 ab dcodes k e ltac:(lia) E). split; [apply H3|]. intros [->| ->]; assumption. }
  assert (hi = lo + 2) as ->. { pose proof (mapM_length _ _ _ G3) as Q. unfold zfromto in Q. rewrite map_length, zrange_length in Q. destruct Hts as [Hts|Hts]; rewrite Hts in Q; cbn in Q; lia. }
  replace (zfromto lo (lo + 2)) with [lo; lo + 1] in G3 by (unfold zfromto; replace (lo + 2 - lo) with 2 by lia; change (zrange 2) with [0; 1]; cbn [map]; f_equal; lia).
  destruct (tri_row t _ H1) as (tv & R1 & S1 & N1). destruct (tri_row u _ H2) as (uv & R2 & S2 & N2).
  assert (forall e row, ent_verts T 2 e row -> verts_of 3 (t_verts T 2) e = Ok row) as VO.
  { intros e row Re. apply ent_high in Re; [|lia]. assert (row_is 3 (t_verts T 2) e row) as [Lr Re'] by exact Re. clear Re. rename Re' into Re. unfold verts_of. change (zrange 3) with [0; 1; 2]. cbn [mapM]. destruct (Re 0 ltac:(lia)) as (x0 & X0 & Y0). destruct (Re 1 ltac:(lia)) as (x1 & X1 & Y1). destruct (Re 2 ltac:(lia)) as (x2 & X2 & Y2). rewrite X0, X1, X2. cbn [bind]. f_equal.
    destruct row as [|z0 [|z1 [|z2 [|z3 row]]]]; unfold zlen in Lr; cbn [length] in Lr; try lia. cbn in Y0, Y1, Y2. injection Y0 as <-. injection Y1 as <-. injection Y2 as <-. reflexivity. }
  assert (forall i e, i = 0 \/ i = 1 -> zget (adj_ab2b (kept_adj old 1 2)) (lo + i) = Ok e -> forall row, ent_verts T 2 e row -> exists code, zget codes (lo + i) = Ok code /\ 0 <= code_which_down code < 3 /\ 0 <= code_rotation code < 2 /\
     zget row (simplex_down_template 2 1 (code_which_down code) (Z.lxor (code_rotation code) 0)) = Ok a /\ zget row (simplex_down_template 2 1 (code_which_down code) (Z.lxor (code_rotation code) 1)) = Ok b) as KC.
  { intros i e Hi Ee row Re. destruct (UC (lo + i)) as (c & code & Ec & Ecode & Hw & Hrot & Q1 & Q2); [exists lo, (lo + 2); split; [exact G1|]; split; [exact G2|lia]|]. assert (c = e) as -> by congruence. exists code. split; [exact Ecode|]. change (simplex_degree 2 1) with 3 in Hw. split; [exact Hw|]. split; [exact Hrot|].
    apply ent_high in Re; [|lia]. change (2 + 1) with 3 in *. assert (forall w r, 0 <= w < 3 -> r = 0 \/ r = 1 -> 0 <= simplex_down_template 2 1 w r < 3) as Tb by (clear; intros w r Hw Hr; assert (w = 0 \/ w = 1 \/ w = 2) as [->|[->| ->]] by lia; destruct Hr as [->| ->]; vm_compute; split; congruence).
    assert (code_rotation code = 0 \/ code_rotation code = 1) as Hr by lia. rewrite (row_zget 3 _ _ row) in Q1, Q2 by (first [exact Re|apply Tb; [exact Hw|destruct Hr as [->| ->]; cbn; auto]]). auto. }
  cbn [mapM] in G3. apply bind_ok in G3 as (e0 & G3 & G4). apply bind_ok in G4 as (es & G4 & G5). apply bind_ok in G4 as (e1 & G4 & G6). injection G6 as <-. injection G5 as G5.
  assert (forall ra rb, ent_verts T 2 e0 ra -> ent_verts T 2 e1 rb -> ([ra; rb] = [tv; uv] \/ [ra; rb] = [uv; tv]) -> exists tris, two_sides (adj_a2ab (kept_adj old 1 2)) (adj_ab2b (kept_adj old 1 2)) codes (t_verts T 2) (t_verts T 1) k a b x y tris) as K.
  { intros ra rb Ra Rb HH. exists [ra; rb]. exists lo. split; [exact G1|]. split; [exact Ea|]. split; [exact Eb|]. split; [cbn [mapM]; rewrite G3, G4; cbn [bind]; rewrite (VO e0 ra Ra), (VO e1 rb Rb); reflexivity|]. split.
    - intros i row Er. pose proof (zget_bounds _ _ _ Er) as B. unfold zlen in B. cbn [length] in B. assert (i = 0 \/ i = 1) as [->| ->] by lia; cbn in Er; injection Er as <-; [apply (KC 0 e0); [left; reflexivity|replace (lo + 0) with lo by lia; exact G3|exact Ra]|apply (KC 1 e1); [right; reflexivity|exact G4|exact Rb]].
    - split; [exact N4|]. exists tv, uv. split; [exact HH|]. auto. }
  destruct Hts as [Hts|Hts]; rewrite <- G5 in Hts; injection Hts as -> ->; [apply (K tv uv)|apply (K uv tv)]; auto.
Qed.
End diamonds.
