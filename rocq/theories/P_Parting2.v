(** What stays the same when a mesh is distributed in another way. *)
From Coq Require Import Sorting.Sorted.
From Verif Require Import Prelude M_Array M_Par M_Scan M_Sort M_Map M_Tags M_Template M_Dist M_Owners M_Migrate M_Ghost M_Parting S_Map S_Dist S_Owners S_Migrate S_Ghost S_Parting.
From Verif Require Import P_Array P_Map P_Map2 P_Fan P_Dist P_Dist2 P_Dist3 P_Dist5 P_Dist6 P_Owners P_Link P_Migrate2 P_Migrate4 P_Migrate5 P_Migrate6 P_Ghost2 P_Ghost3 P_Ghost4 P_Ghost5 P_Ghost6 P_Parting.
Local Open Scope Z_scope.

(** ** vertices, and elements that touch *)
Section generic.
Context (nranks : Z) (m m' : dmesh) (R : Z -> Z -> Z -> Z -> Z -> Prop).
Hypothesis Sm : sound nranks m.
Hypothesis Sm' : sound nranks m'.
Hypothesis I : same_mesh m m' R.

Lemma bounds_side nr mm d s x v : sound nr mm -> (bounds mm (S d) s x v <-> exists k l, side mm (Z.of_nat d) s x k l /\ bounds mm d s l v).
Proof.
  intros S0. cbn [bounds]. replace (Z.of_nat (S d)) with (Z.of_nat d + 1) by lia. split.
  - intros (e & k & l & He & Hk & Hg & Hb). exists k, l. split; [|exact Hb]. split; [lia|]. exists e. auto.
  - intros (k & l & (_ & e & He & Hk & Hg) & Hb). exists e, k, l. auto.
Qed.
Lemma iso_bounds_fwd : forall d s x s' x' v, R (Z.of_nat d) s x s' x' -> bounds m d s x v -> exists v', bounds m' d s' x' v' /\ R 0 s v s' v'.
Proof using Sm Sm' I.
  induction d as [|d IH]; intros s x s' x' v HR Hb.
  - cbn [bounds] in *. subst v. exists x'. auto.
  - apply (bounds_side nranks) in Hb as (k & l & Hs & Hb); [|exact Sm]. replace (Z.of_nat (S d)) with (Z.of_nat d + 1) in HR by lia. pose proof (proj2 (i_in _ _ _ I _ _ _ _ _ HR)) as P.
    destruct (side_present nranks m' (Z.of_nat d) s' x' k Sm' ltac:(lia) P) as (l' & Hs'). { rewrite (i_family _ _ _ I). destruct Hs as (_ & e & _ & Hk & _). exact Hk. }
    destruct (IH s l s' l' v (i_sides _ _ _ I _ _ _ _ _ _ _ _ HR Hs Hs') Hb) as (v' & B & V). exists v'. split; [|exact V]. apply (bounds_side nranks); [exact Sm'|]. eauto.
Qed.
Lemma iso_bounds_bwd : forall d s x s' x' v', R (Z.of_nat d) s x s' x' -> bounds m' d s' x' v' -> exists v, bounds m d s x v /\ R 0 s v s' v'.
Proof using Sm Sm' I.
  induction d as [|d IH]; intros s x s' x' v' HR Hb.
  - cbn [bounds] in *. subst v'. exists x. auto.
  - apply (bounds_side nranks) in Hb as (k & l' & Hs' & Hb); [|exact Sm']. replace (Z.of_nat (S d)) with (Z.of_nat d + 1) in HR by lia. pose proof (proj1 (i_in _ _ _ I _ _ _ _ _ HR)) as P.
    destruct (side_present nranks m (Z.of_nat d) s x k Sm ltac:(lia) P) as (l & Hs). { rewrite <- (i_family _ _ _ I). destruct Hs' as (_ & e & _ & Hk & _). exact Hk. }
    destruct (IH s l s' l' v' (i_sides _ _ _ I _ _ _ _ _ _ _ _ HR Hs Hs') Hb) as (v & B & V). exists v. split; [|exact V]. apply (bounds_side nranks); [exact Sm|]. eauto.
Qed.
Lemma touch_bounds nr mm t j u i : sound nr mm -> (touch mm t j u i <-> exists v w, bounds mm (Z.to_nat (dm_dim mm)) t j v /\ bounds mm (Z.to_nat (dm_dim mm)) u i w /\ same_ent mm 0 t v u w).
Proof.
  intros S0. split.
  - intros (r & q & (e & v & He & Hb & O) & (e' & w & He' & Hb' & O')). assert (e' = e) as -> by congruence. exists v, w. split; [exact Hb|]. split; [exact Hb'|]. exists e, r, q. auto.
  - intros (v & w & Hb & Hb' & (e & r & q & He & O & O')). exists r, q. split; [exists e, v|exists e, w]; auto.
Qed.
Lemma touch_iso t j t' j' u i u' i' : R (dm_dim m) t j t' j' -> R (dm_dim m) u i u' i' -> (touch m t j u i <-> touch m' t' j' u' i').
Proof using Sm Sm' I.
  intros R1 R2. pose proof (s_dim _ _ Sm) as D. rewrite (touch_bounds nranks m), (touch_bounds nranks m') by assumption. rewrite (i_dim _ _ _ I). rewrite <- (Z2Nat.id (dm_dim m)) in R1, R2 by lia. split.
  - intros (v & w & B1 & B2 & E). destruct (iso_bounds_fwd _ _ _ _ _ _ R1 B1) as (v' & B1' & V). destruct (iso_bounds_fwd _ _ _ _ _ _ R2 B2) as (w' & B2' & W). exists v', w'. split; [exact B1'|]. split; [exact B2'|]. apply (i_copies _ _ _ I _ _ _ _ _ _ _ _ _ V W), E.
  - intros (v & w & B1 & B2 & E). destruct (iso_bounds_bwd _ _ _ _ _ _ R1 B1) as (v' & B1' & V). destruct (iso_bounds_bwd _ _ _ _ _ _ R2 B2) as (w' & B2' & W). exists v', w'. split; [exact B1'|]. split; [exact B2'|]. apply (i_copies _ _ _ I _ _ _ _ _ _ _ _ _ V W), E.
Qed.
End generic.

Lemma near_owner m elems s n t j : near m elems s n t j -> is_owner elems t j.
Proof. destruct n as [|n]; cbn [near]; [intros [-> H]; exists s; exact H|]. intros (t' & j' & _ & H & _). exact H. Qed.
Lemma near_sum m elems s have k : (forall t j, is_on elems s t j <-> near m elems s have t j) -> forall t j, within m elems s k t j <-> near m elems s (have + k) t j.
Proof.
  intros H. induction k as [|k IH]; intros t j; [rewrite Nat.add_0_r; apply H|]. rewrite Nat.add_succ_r. cbn [within near]. split; intros (t' & j' & W & X); exists t', j'; (split; [apply IH, W|exact X]).
Qed.

Section moved.
Context (nranks : Z) (mode : parting) (m m' : dmesh) (srcs : list (list (list (Z * Z)))) (elems : dents) (src : list (list (Z * Z))).
Hypothesis Sm : sound nranks m.
Hypothesis Am : agrees m.
Hypothesis Cm : covered m.
Hypothesis Sm' : sound nranks m'.
Hypothesis Am' : agrees m'.
Hypothesis Mv : migrated mode m m' srcs.
Hypothesis Pr : owners_present mode m srcs.
Hypothesis He : elems_of m = Ok elems.
Hypothesis Hs : zget srcs (dm_dim m) = Ok src.
Hypothesis Ls : zlen src = nranks.
Hypothesis Own : forall s c t j, copy_of src s c t j -> is_owner elems t j.
Hypothesis Every : forall t j, is_owner elems t j -> exists s c, copy_of src s c t j.
Context (elems' : dents).
Hypothesis He' : elems_of m' = Ok elems'.

Lemma moved_iso : same_mesh m m' (moved_to m srcs).
Proof using Sm Am Cm Mv Pr He Hs Ls Own Every. eapply migrated_same; eauto. Qed.
Lemma self_owned t j : is_owner elems t j -> owner_is (de_ranks elems) (de_idxs elems) t j t j.
Proof using Am He. intros (s & x & O). apply (proj1 Am _ _ He s x t j O). Qed.
Lemma self_owned' t j : is_owner elems' t j -> owner_is (de_ranks elems') (de_idxs elems') t j t j.
Proof using Am' He'. intros (s & x & O). apply (proj1 Am' _ _ He' s x t j O). Qed.
Lemma elems_moved : level_moved mode (dm_dim m) elems elems' src.
Proof using Mv He Hs He'. unfold elems_of in *. rewrite (g_dim _ _ _ _ Mv) in He'. exact (g_level _ _ _ _ Mv _ _ _ _ He He' Hs). Qed.
Lemma src_self s c t j : copy_of src s c t j -> owner_is (de_ranks elems) (de_idxs elems) t j t j.
Proof using Am He Own. intros H. apply self_owned. eapply Own; eauto. Qed.
Lemma new_owner_of s c t j : copy_of src s c t j -> exists t' j', copy_of src t' j' t j /\ is_owner elems' t' j' /\ forall s' c', copy_of src s' c' t j -> owner_is (de_ranks elems') (de_idxs elems') s' c' t' j'.
Proof using Sm Am Mv Pr He Hs Own He'.
  intros Hc. destruct (owner_of_copies nranks mode (dm_dim m) elems elems' src (s_level _ _ Sm _ _ He) elems_moved) with (s := s) (c := c) (r := t) (q := j) as (t' & x & H1 & H2); [| |exact Hc|].
  - intros s0 c0 r q H. eapply owner_range; [exact (s_level _ _ Sm _ _ He)|eapply src_self; eauto].
  - intros Hk s0 c0 r q o H1 H2. eapply Pr; eauto.
  - exists t', x. split; [exact H1|]. split; [exists s, c; apply H2, Hc|exact H2].
Qed.
Lemma old_of t' j' : is_owner elems' t' j' -> exists t j, is_owner elems t j /\ copy_of src t' j' t j /\ forall s x, (owner_is (de_ranks elems') (de_idxs elems') s x t' j' <-> copy_of src s x t j).
Proof using Sm Am Mv Pr He Hs Own Am' He'.
  intros Ho. pose proof (self_owned' _ _ Ho) as O.
  assert (forall s i t j, owner_is (de_ranks elems') (de_idxs elems') s i t j -> exists r q, copy_of src s i r q /\ copy_of src t j r q /\ forall s' c', copy_of src s' c' r q -> owner_is (de_ranks elems') (de_idxs elems') s' c' t j) as Oy.
  { apply (owner_copy nranks mode (dm_dim m) elems elems' src (s_level _ _ Sm _ _ He) elems_moved).
    - intros s0 c0 r q H. eapply owner_range; [exact (s_level _ _ Sm _ _ He)|eapply src_self; eauto].
    - intros Hk s0 c0 r q o H1 H2. eapply Pr; eauto. }
  destruct (Oy _ _ _ _ O) as (t & j & C1 & _ & F). exists t, j. split; [eapply Own; eauto|]. split; [exact C1|]. intros s x. split; [|apply F].
  intros O2. destruct (Oy _ _ _ _ O2) as (r & q & C2 & C3 & _). destruct (copy_fun _ _ _ _ _ _ _ C1 C3) as [-> ->]. exact C2.
Qed.
Lemma moved_elem s c t j : copy_of src s c t j -> moved_to m srcs (dm_dim m) t j s c.
Proof using Am He Hs Own. intros H. exists elems, src, t, j. split; [exact He|]. split; [exact Hs|]. split; [eapply src_self; eauto|exact H]. Qed.

(** *** by elements *)
Lemma moved_by_elems : (forall s c t j, copy_of src s c t j -> t = s) -> forall s t j, is_on elems' s t j -> t = s.
Proof using Sm Am Mv Pr He Hs Own Am' He'.
  intros H s t' j' (x & O). destruct (old_of t' j') as (t & j & _ & C & F); [exists s, x; exact O|]. apply F in O. pose proof (H _ _ _ _ C). pose proof (H _ _ _ _ O). congruence.
Qed.

(** *** by vertices *)
Lemma vertex_rank_kept : keeps_owners mode 0 = true -> forall s x s' x' r q, moved_to m srcs 0 s x s' x' -> forall verts verts', verts_of m = Ok verts -> verts_of m' = Ok verts' -> owner_is (de_ranks verts') (de_idxs verts') s' x' r q ->
  exists q0, owner_is (de_ranks verts) (de_idxs verts) s x r q0.
Proof using Sm Am Mv He Hs Own.
  intros Hk s x s' x' r q (e & sr & r0 & q0 & H1 & H2 & H3 & H4) verts verts' Hv Hv' O. assert (e = verts) as -> by (unfold verts_of in Hv; change VERT with 0 in Hv; congruence).
  pose proof (v_owners _ _ _ _ _ (g_level _ _ _ _ Mv 0 verts verts' sr H1 Hv' H2)) as K. rewrite Hk in K. destruct (proj1 Am _ _ H1 s x r0 q0 H3) as [S0 _]. destruct (K r0 q0 r0 (proj1 S0)) as (y & F & _). destruct (owner_fun _ _ _ _ _ _ _ _ (F _ _ H4) O) as [-> _]. eauto.
Qed.
Lemma moved_by_verts : mode = OMEGA_H_VERT_BASED -> (forall s t j, (exists c, copy_of src s c t j) <-> is_owner elems t j /\ exists q, has_vertex m t j s q) ->
  forall s t j, is_on elems' s t j <-> is_owner elems' t j /\ exists q, has_vertex m' t j s q.
Proof using Sm Am Cm Mv Pr He Hs Ls Own Every Sm' Am' He'.
  intros Emode Cp s t' j'. pose proof (s_dim _ _ Sm) as D. pose proof (s_levels _ _ Sm) as Lv. pose proof (g_levels _ _ _ _ Mv) as Gl. assert (keeps_owners mode 0 = true) as Hk by (rewrite Emode; reflexivity).
  destruct (zget_in_range (dm_ents m) VERT) as (verts & Hv); [change VERT with 0; lia|]. destruct (zget_in_range (dm_ents m') VERT) as (verts' & Hv'); [change VERT with 0; lia|].
  assert (is_owner elems' t' j' -> (is_on elems' s t' j' <-> exists q, has_vertex m' t' j' s q)) as Main.
  { intros Ho. destruct (old_of t' j' Ho) as (t & j & Ow & C & F). pose proof (moved_elem _ _ _ _ C) as HR. rewrite <- (Z2Nat.id (dm_dim m)) in HR by lia.
    transitivity (exists c, copy_of src s c t j); [split; intros (x & Hx); exists x; apply F; exact Hx|]. rewrite Cp. split.
    - intros (_ & q & verts0 & v & Hv0 & Hb & O). assert (verts0 = verts) as -> by (unfold verts_of in Hv0; congruence). destruct (iso_bounds_fwd nranks m m' _ Sm Sm' moved_iso _ _ _ _ _ _ HR Hb) as (v' & Hb' & V).
      destruct (i_in _ _ _ moved_iso _ _ _ _ _ V) as [_ (e & n & E1 & E2 & E3)]. assert (e = verts') as -> by (change VERT with 0 in Hv'; congruence). destruct (owner_exists nranks verts' t' n v' (s_level _ _ Sm' _ _ E1) E2 E3) as (r & q' & O').
      destruct (vertex_rank_kept Hk _ _ _ _ r q' V verts verts' Hv Hv' O') as (q0 & O2). destruct (owner_fun _ _ _ _ _ _ _ _ O O2) as [-> _]. exists q', verts', v'. rewrite (g_dim _ _ _ _ Mv). auto.
    - intros (q' & verts0 & v' & Hv0 & Hb' & O'). assert (verts0 = verts') as -> by (unfold verts_of in Hv0; congruence). rewrite (g_dim _ _ _ _ Mv) in Hb'. destruct (iso_bounds_bwd nranks m m' _ Sm Sm' moved_iso _ _ _ _ _ _ HR Hb') as (v & Hb & V).
      destruct (vertex_rank_kept Hk _ _ _ _ s q' V verts verts' Hv Hv' O') as (q0 & O2). split; [exact Ow|]. exists q0, verts, v. auto. }
  split.
  - intros Hon. assert (is_owner elems' t' j') as Ho by (exists s; exact Hon). split; [exact Ho|]. apply Main; assumption.
  - intros [Ho Hh]. apply Main; assumption.
Qed.

(** *** layers *)
Lemma near_iso : mode = OMEGA_H_GHOSTED -> forall s n t j j', is_owner elems t j -> is_owner elems' t j' -> copy_of src t j' t j -> (near m elems s n t j <-> near m' elems' s n t j').
Proof using Sm Am Cm Mv Pr He Hs Ls Own Every Sm' Am' He'.
  intros Emode s n.
  assert (forall u i, is_owner elems u i -> exists i', is_owner elems' u i' /\ copy_of src u i' u i) as To.
  { intros u i Ho. destruct (Every u i Ho) as (s0 & c0 & C). pose proof (self_owned _ _ Ho) as O. destruct (new_owner_of _ _ _ _ C) as (u' & i' & C' & Ho' & F). pose proof (v_owners _ _ _ _ _ elems_moved) as K. rewrite Emode in K. cbn [keeps_owners] in K. destruct (K u i u (proj1 O)) as (y & F' & _).
    destruct (owner_fun _ _ _ _ _ _ _ _ (F _ _ C) (F' _ _ C)) as [<- _]. eauto. }
  assert (forall u i', is_owner elems' u i' -> exists i, is_owner elems u i /\ copy_of src u i' u i) as From.
  { intros u i' Ho. destruct (old_of u i' Ho) as (r & q & Ow & C & F). exists q. pose proof (self_owned _ _ Ow) as O. pose proof (v_owners _ _ _ _ _ elems_moved) as K. rewrite Emode in K. cbn [keeps_owners] in K. destruct (K r q r (proj1 O)) as (y & F' & _).
    pose proof (self_owned' _ _ Ho) as O'. destruct (owner_fun _ _ _ _ _ _ _ _ O' (F' _ _ C)) as [E _]. subst r. auto. }
  induction n as [|n IH]; intros t j j' Ho Ho' C; cbn [near].
  - split; intros [-> _]; (split; [reflexivity|]); [exists j'; apply self_owned', Ho'|exists j; apply self_owned, Ho].
  - split.
    + intros (u & i & N & _ & T). destruct (To u i (near_owner _ _ _ _ _ _ N)) as (i' & Hi' & Ci). exists u, i'. split; [apply (IH u i i'); [eapply near_owner; eauto|assumption..]|]. split; [exact Ho'|]. apply (touch_iso nranks m m' _ Sm Sm' moved_iso u i u i' t j t j'); [apply moved_elem, Ci|apply moved_elem, C|exact T].
    + intros (u & i' & N & _ & T). destruct (From u i' (near_owner _ _ _ _ _ _ N)) as (i & Hi & Ci). exists u, i. split; [apply (IH u i i'); [assumption|eapply near_owner; eauto|assumption..]|]. split; [exact Ho|]. apply (touch_iso nranks m m' _ Sm Sm' moved_iso u i u i' t j t j'); [apply moved_elem, Ci|apply moved_elem, C|exact T].
Qed.
Lemma moved_ghosted have k : mode = OMEGA_H_GHOSTED -> (forall s t j, is_on elems s t j <-> near m elems s have t j) -> (forall s t j, (exists c, copy_of src s c t j) <-> within m elems s k t j) ->
  forall s t j, is_on elems' s t j <-> near m' elems' s (have + k) t j.
Proof using Sm Am Cm Mv Pr He Hs Ls Own Every Sm' Am' He'.
  intros Emode Hh Cp s t j'.
  assert (is_owner elems' t j' -> (is_on elems' s t j' <-> near m' elems' s (have + k) t j')) as Main.
  { intros Ho. destruct (old_of t j' Ho) as (r & q & Ow & C & F). pose proof (self_owned _ _ Ow) as O. pose proof (v_owners _ _ _ _ _ elems_moved) as K. rewrite Emode in K. cbn [keeps_owners] in K. destruct (K r q r (proj1 O)) as (y & F' & _).
    pose proof (self_owned' _ _ Ho) as O'. destruct (owner_fun _ _ _ _ _ _ _ _ O' (F' _ _ C)) as [E _]. subst r.
    transitivity (exists c, copy_of src s c t q); [split; intros (x & Hx); exists x; apply F; exact Hx|]. rewrite Cp. rewrite (near_sum m elems s have k (Hh s)). apply near_iso; assumption. }
  split; intros H; (apply Main; [|exact H]); [exists s; exact H|eapply near_owner; eauto].
Qed.

End moved.

(** ** elements keep as many vertices *)
Lemma no_copies_twice nranks mode m m' srcs sr : sound nranks m -> migrated mode m m' srcs -> zget srcs 0 = Ok sr -> forall s x y r q, copy_of sr s x r q -> copy_of sr s y r q -> x = y.
Proof.
  intros Sm Mv H0 s x y r q (w & Hw & Hx) (w' & Hw' & Hy). assert (w' = w) as -> by congruence. destruct Mv as [Gf Gd Gs Gl Glev Gsid]. pose proof (s_dim _ _ Sm) as D. pose proof (s_levels _ _ Sm) as Lv.
  destruct (zget_in_range (dm_ents m) (0 + 1) ltac:(lia)) as (high & Hh). destruct (zget_in_range (dm_ents m) 0 ltac:(lia)) as (low & Hl). destruct (zget_in_range (dm_ents m') (0 + 1) ltac:(lia)) as (high' & Hh'). destruct (zget_in_range srcs (0 + 1) ltac:(lia)) as (hsrc & Hhs).
  destruct (Gsid 0 high low high' hsrc sr Hh Hl Hh' Hhs H0) as [[_ Lo] _]. destruct (Lo s w Hw) as (Nd & _). eapply (NoDup_zget w); eauto.
Qed.

(** the elements of each vertex, from the vertices of each element *)
Definition up_from (deg : Z) (ev : list (list Z)) (verts : dents) (s : Z) (p : list Z * list Z) : Prop :=
  forall y n, zget ev s = Ok y -> zget (de_nents verts) s = Ok n -> is_fan (fst p) /\ zlen (fst p) = n + 1 /\ last_of (fst p) = Ok (zlen (snd p)) /\
    forall v x, (exists c, in_group (fst p) v c /\ zget (snd p) c = Ok x) <-> exists k, 0 <= k < deg /\ zget y (x * deg + k) = Ok v.
Section upward.
Context (nranks : Z) (m : dmesh) (elems verts : dents) (ev : list (list Z)).
Hypothesis Sm : sound nranks m.
Hypothesis He : elems_of m = Ok elems.
Hypothesis Hv : verts_of m = Ok verts.
Let deg := element_degree (dm_family m) (dm_dim m) 0.
Hypothesis De : data_per_root (de_nents elems) ev deg.
Hypothesis Hb : forall s n x v, zget (de_nents elems) s = Ok n -> 0 <= x < n ->
    ((exists k, 0 <= k < deg /\ goes_to ev s (x * deg + k) v) <-> bounds m (Z.to_nat (dm_dim m)) s x v).
Lemma upward_range s y nv : zget ev s = Ok y -> zget (de_nents verts) s = Ok nv -> 0 <= nv /\ forall b, In b y -> 0 <= b < nv.
Proof using Sm He Hv De Hb.
  pose proof (s_dim _ _ Sm) as D. pose proof (vert_degree_pos nranks m Sm) as Dp. fold deg in Dp. pose proof (s_level _ _ Sm _ _ He) as Se. pose proof (s_level _ _ Sm _ _ Hv) as Sv. pose proof (l_nranks _ _ Se) as Ne. pose proof (l_nranks _ _ Sv) as Nv. pose proof (s_ranks _ _ Sm) as Br. destruct De as [L G].
  intros Hy Hnv. pose proof (zget_bounds _ _ _ Hnv) as Bs. destruct (zget_in_range (de_nents elems) s ltac:(lia)) as (ne & Hne). pose proof (G s ne y Hne Hy) as Ly. split.
  - destruct (l_owners _ _ Sv) as (_ & _ & _ & A & _). eapply A; eauto.
  - intros b Ib. apply In_zget in Ib as (c & Hc). pose proof (zget_bounds _ _ _ Hc) as Bc. destruct (block_index deg c ne Dp ltac:(lia)) as (x & k & E & Hk & Hx). destruct (bounds_range nranks m Sm (Z.to_nat (dm_dim m)) s x b) as (verts0 & n0 & E1 & E2 & E3); [lia|rewrite Z2Nat.id by lia; exists elems, ne; auto| |assert (verts0 = verts) as -> by congruence; assert (n0 = nv) as -> by congruence; lia].
    apply (Hb s ne x b Hne Hx). exists k. split; [exact Hk|]. exists y. split; [exact Hy|]. rewrite <- E. exact Hc.
Qed.
Lemma upward_one s y nv f p : zget ev s = Ok y -> zget (de_nents verts) s = Ok nv -> inverts y nv f p -> up_from deg ev verts s (f, map (fun c => c / deg) p).
Proof using Sm.
  clear Hb De. intros Hy Hnv Inv y' n' Hy' Hn'. assert (y' = y) as -> by congruence. assert (n' = nv) as -> by congruence. cbn [fst snd]. pose proof (vert_degree_pos nranks m Sm) as Dp. fold deg in Dp.
  destruct Inv as (F1 & F2 & F3 & F4 & F5 & F6). split; [exact F1|]. split; [exact F2|]. split; [unfold last_of; rewrite F2; replace (nv + 1 - 1) with nv by lia; rewrite zlen_map, F4; exact F3|].
  intros v x. split.
  + intros (c & Hg & Hc). apply zget_map_inv in Hc as (a & Ha & ->). apply F6 in Hg as (a' & Ha' & Hv'). assert (a' = a) as -> by congruence. exists (a mod deg). split; [apply Z.mod_pos_bound, Dp|]. replace (a / deg * deg + a mod deg) with a by (rewrite Z.mul_comm; apply Z.div_mod; lia). exact Hv'.
  + intros (k & Hk & Hc). pose proof (zget_bounds _ _ _ Hc) as Bc. assert (exists c, zget p c = Ok (x * deg + k)) as (c & Hpc) by (apply In_zget, (is_perm_in _ _ F5); lia). exists c. split; [apply F6; eauto|]. rewrite zget_map, Hpc. cbn. f_equal. rewrite Z.add_comm, Z.div_add by lia. rewrite Z.div_small by lia. lia.
Qed.
Lemma upward_given ps : zlen ps = nranks -> (forall s p, zget ps s = Ok p -> up_from deg ev verts s p) -> answered m elems verts (Asked ev (map fst ps) (map snd ps)).
Proof using Sm He Hv De Hb.
  intros Lp Gp. pose proof (s_dim _ _ Sm) as D. pose proof (vert_degree_pos nranks m Sm) as Dp. fold deg in Dp. pose proof (s_level _ _ Sm _ _ He) as Se. pose proof (s_level _ _ Sm _ _ Hv) as Sv. pose proof (l_nranks _ _ Se) as Ne. pose proof (l_nranks _ _ Sv) as Nv. pose proof (s_ranks _ _ Sm) as Br. destruct De as [L G].
  constructor; cbn [elems2verts verts2uses uses2elems].
    + split; [exact L|exact G].
    + exact Hb.
    + rewrite !zlen_map. lia.
    + intros s f u n Hf Hu Hn. apply zget_map_inv in Hf as (p & Hp & ->). apply zget_map_inv in Hu as (p' & Hp' & ->). assert (p' = p) as -> by congruence. destruct (zget_in_range ev s) as (y & Hy); [rewrite L, Ne, <- Nv; eapply zget_bounds; eauto|]. destruct (Gp s p Hp y n Hy Hn) as (A1 & A2 & A3 & _). auto.
    + intros s f u n v x Hf Hu Hn. apply zget_map_inv in Hf as (p & Hp & ->). apply zget_map_inv in Hu as (p' & Hp' & ->). assert (p' = p) as -> by congruence. pose proof (zget_bounds _ _ _ Hn) as Bs. destruct (zget_in_range ev s ltac:(lia)) as (y & Hy). destruct (zget_in_range (de_nents verts) s ltac:(lia)) as (nv & Hnv).
      destruct (Gp s p Hp y nv Hy Hnv) as (_ & _ & _ & A4). rewrite A4. pose proof (G s n y Hn Hy) as Ly. split.
      * intros (k & Hk & Hc). pose proof (zget_bounds _ _ _ Hc) as Bc. assert (0 <= x < n) as Bx by nia. split; [exact Bx|]. apply (Hb s n x v Hn Bx). exists k. split; [exact Hk|]. exists y. auto.
      * intros (Bx & B). apply (Hb s n x v Hn Bx) in B as (k & Hk & (y' & Hy' & Hc)). assert (y' = y) as -> by congruence. eauto.
Qed.
Lemma upward : exists f u, answered m elems verts (Asked ev f u).
Proof using Sm He Hv De Hb.
  pose proof (s_level _ _ Sm _ _ He) as Se. pose proof (s_level _ _ Sm _ _ Hv) as Sv. pose proof (l_nranks _ _ Se) as Ne. pose proof (l_nranks _ _ Sv) as Nv. pose proof (s_ranks _ _ Sm) as Br. destruct De as [L G].
  destruct (rank_choice nranks (up_from deg ev verts)) as (ps & Lp & Gp); [lia| |exists (map fst ps), (map snd ps); apply upward_given; auto].
  intros s Bs. destruct (zget_in_range ev s ltac:(lia)) as (y & Hy). destruct (zget_in_range (de_nents verts) s ltac:(lia)) as (nv & Hnv). destruct (upward_range s y nv Hy Hnv) as [Bnv By]. destruct (sorting_inverter s y nv Bnv By) as (f & p & _ & Inv). exists (f, map (fun c => c / deg) p). eapply upward_one; eauto.
Qed.
End upward.

Lemma moved_answerable nranks mode m m' srcs elems src : sound nranks m -> agrees m -> covered m -> sound nranks m' -> migrated mode m m' srcs -> owners_present mode m srcs -> elems_of m = Ok elems -> zget srcs (dm_dim m) = Ok src -> zlen src = nranks ->
  (forall s c t j, copy_of src s c t j -> is_owner elems t j) -> (forall t j, is_owner elems t j -> exists s c, copy_of src s c t j) -> answerable m -> answerable m'.
Proof.
  intros Sm Am Cm Sm' Mv Pr He Hs Ls Own Every (elems0 & verts & a & He0 & Hv & Wa). assert (elems0 = elems) as -> by congruence. clear He0. pose proof (s_dim _ _ Sm) as D. pose proof (s_levels _ _ Sm) as Lv. pose proof (g_levels _ _ _ _ Mv) as Gl. pose proof (g_srcs _ _ _ _ Mv) as Gs. pose proof (s_ranks _ _ Sm) as Br. pose proof (vert_degree_pos nranks m Sm) as Dp.
  pose proof (migrated_same nranks mode m m' srcs elems src Sm Am Cm Mv Pr He Hs Ls Own Every) as Iso.
  destruct (zget_in_range (dm_ents m') VERT) as (verts' & Hv'); [change VERT with 0; lia|]. destruct (zget_in_range (dm_ents m') (dm_dim m) ltac:(lia)) as (elems' & He'). destruct (zget_in_range srcs 0 ltac:(lia)) as (v0 & Hv0).
  pose proof (g_level _ _ _ _ Mv _ _ _ _ He He' Hs) as Lm. pose proof (s_level _ _ Sm' _ _ He') as Se'. pose proof (l_nranks _ _ Se') as Ne'.
  set (deg := element_degree (dm_family m) (dm_dim m) 0) in *.
  assert (forall s c t j, copy_of src s c t j -> moved_to m srcs (Z.of_nat (Z.to_nat (dm_dim m))) t j s c) as Mt. { intros s c t j C. rewrite Z2Nat.id by lia. exists elems, src, t, j. split; [exact He|]. split; [exact Hs|]. split; [|exact C]. destruct (Own _ _ _ _ C) as (u & x & O). apply (proj1 Am _ _ He u x t j O). }
  assert (forall s v v' w', moved_to m srcs 0 s v w' v' -> forall v'', moved_to m srcs 0 s v w' v'' -> v'' = v') as One.
  { intros s v v' w' (e & sr & r & q & H1 & H2 & H3 & H4) v'' (e1 & sr1 & r1 & q1 & K1 & K2 & K3 & K4). assert (e1 = e) as -> by congruence. assert (sr1 = sr) as -> by congruence. destruct (owner_fun _ _ _ _ _ _ _ _ H3 K3) as [-> ->]. exact (no_copies_twice nranks mode m m' srcs sr Sm Mv H2 _ _ _ _ _ K4 H4). }
  destruct (rank_choice nranks (fun s (y : list Z) => forall l, zget src s = Ok l -> zlen y = zlen l * deg /\ forall x k t j v, 0 <= k < deg -> zget l x = Ok (t, j) -> goes_to (elems2verts a) t (j * deg + k) v ->
    exists v', zget y (x * deg + k) = Ok v' /\ bounds m' (Z.to_nat (dm_dim m)) s x v' /\ moved_to m srcs 0 t v s v')) as (ev & Lev & Gev); [lia| |].
  - intros s Bs. destruct (zget_in_range src s ltac:(lia)) as (l & Hl). pose proof (zlen_nonneg l) as Zl.
    destruct (rank_choice (zlen l * deg) (fun i v' => forall x k t j v, i = x * deg + k -> 0 <= k < deg -> zget l x = Ok (t, j) -> goes_to (elems2verts a) t (j * deg + k) v -> bounds m' (Z.to_nat (dm_dim m)) s x v' /\ moved_to m srcs 0 t v s v')) as (y & Ly & Gy); [nia| |].
    + intros i Bi. destruct (block_index deg i (zlen l) Dp Bi) as (x & k & E & Hk & Hx). destruct (zget_in_range l x Hx) as ([t j] & Hxl). assert (copy_of src s x t j) as C by (exists l; auto).
      assert (exists n, zget (de_nents elems) t = Ok n /\ 0 <= j < n) as (n & Hn & Bj). { destruct (Own _ _ _ _ C) as (u & z & O). destruct (proj1 Am _ _ He u z t j O) as [O' _]. eapply owner_range; [exact (s_level _ _ Sm _ _ He)|exact O']. }
      destruct (w_size _ _ _ _ Wa) as [W1 W2]. destruct (zget_in_range (elems2verts a) t) as (z & Hz); [rewrite W1; eapply zget_bounds; eauto|]. destruct (zget_in_range z (j * deg + k)) as (v & Hvz); [rewrite (W2 t n z Hn Hz); fold deg; nia|].
      assert (bounds m (Z.to_nat (dm_dim m)) t j v) as Hb. { apply (w_verts _ _ _ _ Wa t n j v Hn Bj). exists k. split; [exact Hk|]. exists z. auto. }
      destruct (iso_bounds_fwd nranks m m' _ Sm Sm' Iso _ _ _ _ _ _ (Mt _ _ _ _ C) Hb) as (v' & B' & V). exists v'. intros x1 k1 t1 j1 v1 E1 Hk1 Hx1 Hg1. destruct (block_unique deg x k x1 k1 Hk Hk1 ltac:(lia)) as [<- <-]. rewrite Hxl in Hx1. injection Hx1 as <- <-.
      assert (v1 = v) as -> by (destruct Hg1 as (z' & Hz' & G); congruence). auto.
    + exists y. intros l' Hl'. assert (l' = l) as -> by congruence. split; [exact Ly|]. intros x k t j v Hk Hx Hg. pose proof (zget_bounds _ _ _ Hx). destruct (zget_in_range y (x * deg + k)) as (v' & Hv1); [rewrite Ly; nia|]. exists v'. split; [exact Hv1|]. eapply Gy; eauto.
  - destruct (upward nranks m' elems' verts' ev Sm') as (f & u & Wa').
    + unfold elems_of. rewrite (g_dim _ _ _ _ Mv). exact He'.
    + exact Hv'.
    + rewrite (g_family _ _ _ _ Mv), (g_dim _ _ _ _ Mv). fold deg. split; [lia|]. intros s n y Hn Hy. apply (new_nents mode (dm_dim m) elems elems' src Lm) in Hn as (l & Hl & ->). apply (Gev s y Hy l Hl).
    + rewrite (g_family _ _ _ _ Mv), (g_dim _ _ _ _ Mv). fold deg. intros s n x v' Hn Bx. apply (new_nents mode (dm_dim m) elems elems' src Lm) in Hn as (l & Hl & ->). destruct (zget_in_range ev s) as (y & Hy); [rewrite Lev, <- Ls; eapply zget_bounds; eauto|]. destruct (Gev s y Hy l Hl) as [Ly Gy].
      destruct (zget_in_range l x Bx) as ([t j] & Hx). assert (copy_of src s x t j) as C by (exists l; auto). pose proof (Mt _ _ _ _ C) as HR.
      assert (exists n, zget (de_nents elems) t = Ok n /\ 0 <= j < n) as (n & Hn & Bj). { destruct (Own _ _ _ _ C) as (u & z & O). destruct (proj1 Am _ _ He u z t j O) as [O' _]. eapply owner_range; [exact (s_level _ _ Sm _ _ He)|exact O']. }
      split.
      * intros (k & Hk & (y' & Hy' & Hc)). assert (y' = y) as -> by congruence. destruct (w_size _ _ _ _ Wa) as [W1 W2]. destruct (zget_in_range (elems2verts a) t) as (z & Hz); [rewrite W1; eapply zget_bounds; eauto|]. destruct (zget_in_range z (j * deg + k)) as (v & Hvz); [rewrite (W2 t n z Hn Hz); fold deg; nia|].
        destruct (Gy x k t j v Hk Hx) as (v1 & E1 & B1 & _); [exists z; auto|]. assert (v1 = v') as -> by congruence. exact B1.
      * intros B. destruct (iso_bounds_bwd nranks m m' _ Sm Sm' Iso _ _ _ _ _ _ HR B) as (v & Hb & V). apply (w_verts _ _ _ _ Wa t n j v Hn Bj) in Hb as (k & Hk & Hg). destruct (Gy x k t j v Hk Hx Hg) as (v1 & E1 & _ & V1). pose proof (One _ _ _ _ V _ V1) as ->. exists k. split; [exact Hk|]. exists y. auto.
    + exists elems', verts', (Asked ev f u). split; [unfold elems_of; rewrite (g_dim _ _ _ _ Mv); exact He'|]. split; [exact Hv'|exact Wa'].
Qed.
