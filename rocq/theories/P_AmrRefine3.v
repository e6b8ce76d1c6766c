(** Proofs for C87: order of the new numbers; neighbours share vertices. *)
From Coq Require Import Lia Sorting.Sorted RelationClasses.
From Verif Require Import Prelude M_Array M_Map S_Map M_Graph S_Graph M_Parents M_Template P_Array P_Map P_Map2 P_Coarsen M_Modify S_Modify M_AmrTopo S_AmrTopo M_AmrTransfer S_AmrTransfer M_AmrRefine S_AmrRefine P_AmrRefine P_AmrRefine2.
Local Open Scope Z_scope.

Lemma sorted_lt_get l : StronglySorted Z.lt l -> forall i j x y, i < j -> zget l i = Ok x -> zget l j = Ok y -> x < y.
Proof.
  induction 1 as [|a l S IH F]; intros i j x y H X Y; pose proof (zget_bounds _ _ _ X) as BX; pose proof (zget_bounds _ _ _ Y) as BY.
  - unfold zlen in BX. cbn in BX. lia.
  - rewrite Forall_forall in F. rewrite (zget_S a l j) in Y by lia. destruct (Z.eq_dec i 0) as [->|N].
    + cbn in X. injection X as <-. apply F. eapply zget_In. exact Y.
    + rewrite (zget_S a l i) in X by lia. apply (IH (i - 1) (j - 1)); [lia|exact X|exact Y].
Qed.

Lemma numbers_order_w ms pd mods marks : consistent ms -> 1 <= mesh_dim ms -> 0 <= pd <= mesh_dim ms -> chosen ms mods ->
  exists r, refine_numbers ms pd mods marks = Ok r /\ nnew r = nents ms pd + products mods pd (Z.max 1 pd) (mesh_dim ms + 1) /\
  (forall x y xn yn, x < y -> zget (old2new r) x = Ok xn -> zget (old2new r) y = Ok yn -> xn < yn) /\
  (forall e e' d md p, made_of (mesh_dim ms) pd mods (prods2new r) e d md p -> made_of (mesh_dim ms) pd mods (prods2new r) e' d md (p + 1) -> e' = e + 1) /\
  (forall e d md p rep x xn, made_of (mesh_dim ms) pd mods (prods2new r) e d md p -> represents ms pd d md rep -> zget (old2new r) x = Ok xn -> (x <= rep -> xn < e) /\ (rep < x -> e < xn)).
Proof.
  intros HC HD HP HM. destruct (refine_numbers_w ms pd mods marks HC HD HP HM) as (mp & r & _ & E & G & PB & NN & RN & LO & ND & ST & _).
  destruct G as (G1 & G2 & G3 & G4 & G5 & G6 & G7 & G8 & _ & G10 & G11 & G9). exists r. split; [exact E|].
  assert (PM : forall e d md p, made_of (mesh_dim ms) pd mods (prods2new r) e d md p -> exists q, produced_by (as_few (mesh_dim ms) mods) mp d md q /\ zget (prods2new r) q = Ok e).
  { intros e d md p (m & A & B & C & D). eexists. split; [|exact D]. apply PB. exists m, p. auto. }
  assert (SO : same2old r = zrange (nents ms pd)).
  { apply sorted_ext; [apply Sorted_StronglySorted; [exact Z.lt_trans|exact G2]|apply zrange_sorted|]. intros x. rewrite G1, in_zrange. tauto. }
  destruct HC as (HC0 & HC1 & HC2). destruct (HC1 pd HP) as (HN & _).
  split; [rewrite G9, SO, zlen_zrange by exact HN; reflexivity|]. split; [|split].
  - intros x y xn yn Hxy Ex Ey. pose proof (zget_bounds _ _ _ Ex) as Bx. pose proof (zget_bounds _ _ _ Ey) as By. rewrite G7 in Bx, By.
    assert (LS : zlen (same2new r) = nents ms pd) by (rewrite G3, SO; apply zlen_zrange; exact HN).
    destruct (zget_in_range (same2new r) x) as (a & Ha); [lia|]. destruct (zget_in_range (same2new r) y) as (c & Hc); [lia|].
    assert (a = xn). { specialize (G8 x x a). rewrite SO, zget_zrange in G8 by exact Bx. specialize (G8 eq_refl Ha). congruence. }
    assert (c = yn). { specialize (G8 y y c). rewrite SO, zget_zrange in G8 by exact By. specialize (G8 eq_refl Hc). congruence. }
    subst. eapply sorted_lt_get; [apply Sorted_StronglySorted; [exact Z.lt_trans|exact G6]|exact Hxy|exact Ha|exact Hc].
  - intros e e' d md p (m & A & B & C & D) (m' & A' & B' & C' & D'). assert (m' = m) by (eapply NoDup_zget; [apply (HM d); lia|exact B'|exact B]). subst m'.
    set (q := products mods pd (Z.max 1 pd) d + m * hypercube_split_degree d pd + p) in *.
    assert (Q : products mods pd (Z.max 1 pd) d + m * hypercube_split_degree d pd + (p + 1) = q + 1) by (unfold q; ring). rewrite Q in D'.
    assert (P1 : produced_by (as_few (mesh_dim ms) mods) mp d md q) by (apply PB; exists m, p; auto).
    assert (P2 : produced_by (as_few (mesh_dim ms) mods) mp d md (q + 1)) by (apply PB; exists m, (p + 1); rewrite Q; auto).
    specialize (G11 d md q e P1 P2 D). congruence.
  - intros e d md p rep x xn H R X. destruct (PM e d md p H) as (q & Q1 & Q2). destruct (G10 d md q e rep Q1 R Q2) as (K & _). exact (K x xn I X).
Qed.

Lemma middle_one_w o mods vnum ld low v v' : are_marked o mods -> ld <= mesh_dim (o_ms o) -> middle o mods vnum ld low v -> middle o mods vnum ld low v' -> v = v'.
Proof.
  intros A HL [(L & E)|[(L & I & m & D & B & C & E)|(L & I & old & T & E)]] [(L' & E')|[(L' & I' & m' & D' & B' & C' & E')|(L' & I' & old' & T' & E')]]; try lia; try contradiction; try congruence.
  assert (m' = m) by (eapply NoDup_zget; [apply (A ld); lia|exact B'|exact B]). subst m'. congruence.
Qed.
