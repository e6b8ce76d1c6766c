(** The 2D swap keeps area and boundary. *)
From Coq Require Import Ring_theory Ring.
From Verif Require Import Prelude M_Array M_Align M_Template M_Swap2d S_Swap3d S_Swap2d P_SwapTables P_Loop P_SwapTopo.
Local Open Scope Z_scope.

Lemma put_ok et2t codes tv2v ev2v u code t e0 e1 x ov r tri : zget codes u = Ok code -> 0 <= code_which_down code < 3 -> 0 <= code_rotation code < 2 ->
  zget et2t u = Ok tri -> verts_of 3 tv2v tri = Ok t ->
  zget t (simplex_down_template 2 1 (code_which_down code) (Z.lxor (code_rotation code) 0)) = Ok e0 ->
  zget t (simplex_down_template 2 1 (code_which_down code) (Z.lxor (code_rotation code) 1)) = Ok e1 ->
  (r = 0 /\ same_turn [e0; e1; x] t \/ r = 1 /\ same_turn [e1; e0; x] t) -> NoDup [e0; e1; x] ->
  (ev2v : list Z) = ev2v -> put_opposite et2t codes tv2v u ov = zset ov r x.
Proof.
  intros Ec Hw Hr Et Ev H0 H1 Ht Hd _. unfold put_opposite. rewrite Ec. cbn [bind]. rewrite Et. cbn [bind].
  assert (zget tv2v (tri * 3 + simplex_opposite_template 2 1 (code_which_down code)) = zget t (simplex_opposite_template 2 1 (code_which_down code))) as ->.
  { unfold verts_of in Ev. assert (exists k, simplex_opposite_template 2 1 (code_which_down code) = k /\ 0 <= k < 3) as (k & -> & Hk).
    { assert (code_which_down code = 0 \/ code_which_down code = 1 \/ code_which_down code = 2) as [->|[->| ->]] by lia; [exists 2 | exists 0 | exists 1]; (split; [vm_compute; reflexivity | lia]). }
    destruct (mapM_nth _ _ _ _ _ Ev (zrange_nth 3 (Z.to_nat k) ltac:(lia))) as (v & E & En). rewrite Z2Nat.id in E by lia. rewrite E. symmetry. apply zget_ok. split; [lia | exact En]. }
  assert (e0 <> e1 /\ e0 <> x /\ e1 <> x) as (N1 & N2 & N3). { inversion Hd as [|? ? A B]; subst. inversion B as [|? ? C D]; subst. cbn [In] in *. intuition congruence. }
  assert (forall a b : Z, Ok a = Ok b -> a = b) as Inj by congruence.
  assert (code_which_down code = 0 \/ code_which_down code = 1 \/ code_which_down code = 2) as W by lia. assert (code_rotation code = 0 \/ code_rotation code = 1) as V by lia.
  destruct Ht as [[-> Ht]|[-> Ht]]; unfold same_turn in Ht; cbn [In] in Ht; destruct Ht as [<-|[<-|[<-|[]]]];
    destruct W as [W|[W|W]]; rewrite W in *; destruct V as [V|V]; rewrite V in *; cbn in H0, H1; apply Inj in H0, H1; try congruence; reflexivity.
Qed.

Lemma key_ok e2et et2t codes tv2v ev2v edge e0 e1 x y tris : two_sides e2et et2t codes tv2v ev2v edge e0 e1 x y tris ->
  swap2d_key e2et et2t codes tv2v ev2v edge = Ok ([x; y], [[e1; x; y]; [e0; y; x]]).
Proof.
  intros (b & Hb & H0 & H1 & Ht & Hc & Hd & t & u & Htu & T1 & T2). unfold swap2d_key. rewrite Hb. cbn [bind].
  assert (NoDup [e0; e1; x] /\ NoDup [e0; e1; y] /\ e0 <> e1) as (D1 & D2 & D3).
  { inversion Hd as [|? ? A B]; subst. inversion B as [|? ? C D]; subst. inversion D as [|? ? G K]; subst. cbn [In] in *. repeat split; repeat constructor; cbn [In]; intuition congruence. }
  replace (b + 0) with b by lia.
  cbn [mapM] in Ht. apply bind_ok in Ht as (t1 & E1 & Ht). apply bind_ok in E1 as (i1 & I1 & E1). apply bind_ok in Ht as (rest & E2 & Ht). apply bind_ok in E2 as (t2 & E2 & Er). apply bind_ok in E2 as (i2 & I2 & E2). injection Er as <-. injection Ht as <-.
  destruct (Hc 0 t1 eq_refl) as (c1 & C1 & C2 & C3 & C4 & C5). destruct (Hc 1 t2 eq_refl) as (c2 & B1 & B2 & B3 & B4 & B5). rewrite Z.add_0_r in C1.
  destruct Htu as [Htu|Htu]; injection Htu as -> ->.
  - rewrite (put_ok et2t codes tv2v ev2v b c1 t e0 e1 x _ 0 i1) by auto. cbn [bind]. assert (zset [-42; -42] 0 x = Ok [x; -42]) as -> by reflexivity. cbn [bind].
    rewrite (put_ok et2t codes tv2v ev2v (b + 1) c2 u e0 e1 y _ 1 i2) by auto. assert (zset [x; -42] 1 y = Ok [x; y]) as -> by reflexivity. cbn [bind]. rewrite H0, H1. reflexivity.
  - rewrite (put_ok et2t codes tv2v ev2v b c1 u e0 e1 y _ 1 i1) by auto. assert (zset [-42; -42] 1 y = Ok [-42; y]) as -> by reflexivity. cbn [bind].
    rewrite (put_ok et2t codes tv2v ev2v (b + 1) c2 t e0 e1 x _ 0 i2) by auto. assert (zset [-42; y] 0 x = Ok [x; y]) as -> by reflexivity. cbn [bind]. rewrite H0, H1. reflexivity.
Qed.

(** ** area *)
Section area.
Context {R : Type} (rO rI : R) (radd rmul rsub : R -> R -> R) (ropp : R -> R) (rt : ring_theory rO rI radd rmul rsub ropp eq).
Add Ring Rr : rt.
Lemma turn_area c t u : same_turn t u -> area rO rmul rsub c u = area rO rmul rsub c t.
Proof.
  destruct t as [|a [|b [|d [|? ?]]]]; try contradiction. cbn [same_turn In]. intros [<-|[<-|[<-|[]]]]; unfold area; destruct (c a), (c b), (c d); ring.
Qed.
Lemma swap_area c e0 e1 x y t u tris : (tris = [t; u] \/ tris = [u; t]) -> same_turn [e0; e1; x] t -> same_turn [e1; e0; y] u ->
  sum_over rO radd (area rO rmul rsub c) [[e1; x; y]; [e0; y; x]] = sum_over rO radd (area rO rmul rsub c) tris.
Proof.
  intros H T1 T2. apply (turn_area c) in T1, T2. assert (sum_over rO radd (area rO rmul rsub c) tris = radd (area rO rmul rsub c t) (area rO rmul rsub c u)) as ->.
  { destruct H as [-> | ->]; unfold sum_over; cbn [fold_right]; ring. }
  rewrite T1, T2. unfold sum_over, area. cbn [fold_right]. destruct (c e0), (c e1), (c x), (c y). ring.
Qed.
End area.

(** ** boundary *)
Lemma has_turn t u z : same_turn t u -> has u z = has t z.
Proof.
  destruct t as [|a [|b [|d [|? ?]]]]; try contradiction. cbn [same_turn In]. intros [<-|[<-|[<-|[]]]]; unfold has; cbn [existsb]; destruct (z =? a), (z =? b), (z =? d); reflexivity.
Qed.
Lemma users_two e0 e1 x y t u tris p q : (tris = [t; u] \/ tris = [u; t]) -> same_turn [e0; e1; x] t -> same_turn [e1; e0; y] u -> edge_users tris p q = edge_users [[e0; e1; x]; [e1; e0; y]] p q.
Proof.
  intros H T1 T2. unfold edge_users. destruct H as [-> | ->]; cbn [filter]; rewrite (has_turn _ _ p T1), (has_turn _ _ q T1), (has_turn _ _ p T2), (has_turn _ _ q T2); destruct (has [e0; e1; x] p && has [e0; e1; x] q), (has [e1; e0; y] p && has [e1; e0; y] q); reflexivity.
Qed.

Lemma has3 a b c z : has [a; b; c] z = (z =? a) || (z =? b) || (z =? c).
Proof. unfold has. cbn [existsb]. destruct (z =? a), (z =? b), (z =? c); reflexivity. Qed.

Lemma users_b t u p q : edge_users [t; u] p q = Z.b2z (has t p && has t q) + Z.b2z (has u p && has u q).
Proof. unfold edge_users. cbn [filter]. destruct (has t p && has t q), (has u p && has u q); reflexivity. Qed.
Lemma swap_edges e0 e1 x y p q : NoDup [e0; e1; x; y] ->
  (boundary_edge [[e1; x; y]; [e0; y; x]] p q <-> boundary_edge [[e0; e1; x]; [e1; e0; y]] p q) /\
  (interior_edge [[e1; x; y]; [e0; y; x]] p q <-> p = x /\ q = y \/ p = y /\ q = x) /\
  (p = e0 /\ q = e1 \/ p = e1 /\ q = e0 -> edge_users [[e1; x; y]; [e0; y; x]] p q = 0).
Proof.
  intros Hd. assert (e0 <> e1 /\ e0 <> x /\ e0 <> y /\ e1 <> x /\ e1 <> y /\ x <> y) as (N1 & N2 & N3 & N4 & N5 & N6).
  { inversion Hd as [|? ? A B]; subst. inversion B as [|? ? C D]; subst. inversion D as [|? ? G K]; subst. cbn [In] in *. repeat split; intuition congruence. }
  clear Hd. unfold boundary_edge, interior_edge. rewrite !users_b, !has3.
  assert (forall v, (v =? e0) = true /\ v = e0 \/ (v =? e1) = true /\ v = e1 \/ (v =? x) = true /\ v = x \/ (v =? y) = true /\ v = y \/ ((v =? e0) = false /\ (v =? e1) = false /\ (v =? x) = false /\ (v =? y) = false /\ v <> x /\ v <> y /\ v <> e0 /\ v <> e1)) as D.
  { intros v. destruct (Z.eqb_spec v e0); [left; auto|]. right. destruct (Z.eqb_spec v e1); [left; auto|]. right. destruct (Z.eqb_spec v x); [left; auto|]. right. destruct (Z.eqb_spec v y); [left; auto|]. right. auto 10. }
  assert ((e0 =? e1) = false /\ (e0 =? x) = false /\ (e0 =? y) = false /\ (e1 =? x) = false /\ (e1 =? y) = false /\ (x =? y) = false /\ (e1 =? e0) = false /\ (x =? e0) = false /\ (y =? e0) = false /\ (x =? e1) = false /\ (y =? e1) = false /\ (y =? x) = false) as (M1 & M2 & M3 & M4 & M5 & M6 & M7 & M8 & M9 & M10 & M11 & M12) by (repeat split; apply Z.eqb_neq; congruence).
  split; [|split].
  - destruct (D p) as [[_ ->]|[[_ ->]|[[_ ->]|[[_ ->]|(P1 & P2 & P3 & P4 & _)]]]]; destruct (D q) as [[_ ->]|[[_ ->]|[[_ ->]|[[_ ->]|(Q1 & Q2 & Q3 & Q4 & _)]]]];
      rewrite ?Z.eqb_refl, ?M1, ?M2, ?M3, ?M4, ?M5, ?M6, ?M7, ?M8, ?M9, ?M10, ?M11, ?M12, ?P1, ?P2, ?P3, ?P4, ?Q1, ?Q2, ?Q3, ?Q4; cbn [andb orb Z.b2z Z.add Pos.add]; clear; intuition congruence.
  - destruct (D p) as [[_ ->]|[[_ ->]|[[_ ->]|[[_ ->]|(P1 & P2 & P3 & P4 & P5 & P6 & P7 & P8)]]]]; destruct (D q) as [[_ ->]|[[_ ->]|[[_ ->]|[[_ ->]|(Q1 & Q2 & Q3 & Q4 & Q5 & Q6 & Q7 & Q8)]]]];
      rewrite ?Z.eqb_refl, ?M1, ?M2, ?M3, ?M4, ?M5, ?M6, ?M7, ?M8, ?M9, ?M10, ?M11, ?M12, ?P1, ?P2, ?P3, ?P4, ?Q1, ?Q2, ?Q3, ?Q4; cbn [andb orb Z.b2z Z.add Pos.add]; clear M1 M2 M3 M4 M5 M6 M7 M8 M9 M10 M11 M12; intuition congruence.
  - intros [[-> ->]|[-> ->]]; rewrite ?Z.eqb_refl, ?M1, ?M2, ?M3, ?M4, ?M5, ?M6, ?M7, ?M8, ?M9, ?M10, ?M11, ?M12; reflexivity.
Qed.

(** ** all keys *)
Lemma swap2d_all e2et et2t codes tv2v ev2v keys2edges :
  (forall edge, In edge keys2edges -> exists e0 e1 x y tris, two_sides e2et et2t codes tv2v ev2v edge e0 e1 x y tris) ->
  exists k2e k2t oe ot, swap2d_topology e2et et2t codes tv2v ev2v keys2edges = Ok ((k2e, k2t), (oe, ot)) /\
  forall key edge, zget keys2edges key = Ok edge -> exists e0 e1 x y tris new, two_sides e2et et2t codes tv2v ev2v edge e0 e1 x y tris /\
    (exists lo hi, zget k2e key = Ok lo /\ zget k2e (key + 1) = Ok hi /\ ents_between 2 oe lo hi = Ok [[x; y]]) /\
    (exists lo hi, zget k2t key = Ok lo /\ zget k2t (key + 1) = Ok hi /\ ents_between 3 ot lo hi = Ok new) /\
    zlen new = 2 /\
    (forall (R : Type) (rO rI : R) radd rmul rsub ropp, ring_theory rO rI radd rmul rsub ropp eq -> forall c,
       sum_over rO radd (area rO rmul rsub c) new = sum_over rO radd (area rO rmul rsub c) tris) /\
    (forall p q, boundary_edge new p q <-> boundary_edge tris p q) /\
    (forall p q, interior_edge new p q <-> p = x /\ q = y \/ p = y /\ q = x) /\
    edge_users new e0 e1 = 0.
Proof.
  intros Hk. unfold swap2d_topology. set (f := fun key => e <- zget keys2edges key ;; swap2d_key e2et et2t codes tv2v ev2v e).
  destruct (mapM_total' f (zrange (zlen keys2edges))) as (rows & Erows).
  { intros k Hi. apply in_zrange in Hi. destruct (zget_in_range keys2edges k Hi) as (e & Ee). destruct (Hk e (zget_In _ _ _ Ee)) as (e0 & e1 & x & y & tris & H). unfold f. rewrite Ee. cbn [bind]. rewrite (key_ok _ _ _ _ _ _ _ _ _ _ _ H). eauto. }
  unfold tabulate. rewrite Erows. cbn [bind].
  assert (zlen rows = zlen keys2edges) as Lr. { unfold zlen. rewrite (mapM_length _ _ _ Erows), zrange_length. unfold zlen. lia. }
  eexists _, _, _, _. split; [reflexivity|]. intros key edge E. destruct (Hk edge (zget_In _ _ _ E)) as (e0 & e1 & x & y & tris & H). exists e0, e1, x, y, tris, [[e1; x; y]; [e0; y; x]]. split; [exact H|].
  pose proof (zget_bounds _ _ _ E) as Bk.
  assert (zget rows key = Ok ([x; y], [[e1; x; y]; [e0; y; x]])) as Er.
  { apply (proj1 (tabulate_ok (zlen keys2edges) f rows ltac:(lia))) in Erows as [_ G]. destruct (G key Bk) as (r & Ef & Er). unfold f in Ef. rewrite E in Ef. cbn [bind] in Ef. rewrite (key_ok _ _ _ _ _ _ _ _ _ _ _ H) in Ef. injection Ef as <-. exact Er. }
  assert (forall r, In r rows -> exists a b c d, r = ([c; d], [[b; c; d]; [a; d; c]])) as Hrows.
  { intros r Hr. apply In_nth_error in Hr as (i & Hi). apply mapM_ok in Erows. assert (exists k, f k = Ok r) as (k & Ek). { clear -Erows Hi. revert i Hi. induction Erows as [|? ? ? ? Hf _ IH]; intros [|i] Hi; cbn in Hi; try discriminate; [injection Hi as <-; eauto | eauto]. }
    unfold f in Ek. apply bind_ok in Ek as (e & Ee & Ek). destruct (Hk e (zget_In _ _ _ Ee)) as (a & b & c & d & tr & Hs). rewrite (key_ok _ _ _ _ _ _ _ _ _ _ _ Hs) in Ek. injection Ek as <-. eauto 6. }
  assert (exists A B, rows = A ++ ([x; y], [[e1; x; y]; [e0; y; x]]) :: B /\ zlen A = key) as (A & B & EAB & LA).
  { apply zget_ok in Er as [H0 Er]. apply nth_error_split in Er as (A & B & -> & LA). exists A, B. split; [reflexivity|]. unfold zlen. lia. }
  assert (forall (g : list Z * list (list Z) -> list Z) s (L : list (list Z * list (list Z))), (forall r, In r L -> zlen (g r) = s) -> zlen (concat (map g L)) = zlen L * s) as Lc.
  { clear. intros g s. induction L as [|r L IH]; intros HL; [reflexivity|]. cbn [map concat]. rewrite zlen_app, zlen_cons, IH by (intros; apply HL; right; assumption). rewrite (HL r) by (left; reflexivity). ring. }
  assert (forall s j, 0 <= j < zlen keys2edges + 1 -> zget (map (fun i => 0 + i * s) (zrange (zlen keys2edges + 1))) j = Ok (j * s)) as Zs.
  { intros s j Hj. rewrite zget_map, zget_zrange by lia. cbn [bind]. reflexivity. }
  split; [|split; [|split; [reflexivity | split; [|split; [|split]]]]].
  - exists (key * 1), ((key + 1) * 1). split; [apply Zs; lia|]. split; [apply Zs; lia|]. rewrite EAB, map_app. cbn [map]. rewrite concat_app. cbn [concat fst].
    pose proof (chunk_get 2 [[x; y]] ltac:(lia)) as C. replace ((key + 1) * 1) with (key * 1 + zlen [[x; y]]) by (change (zlen [[x; y]]) with 1; lia). apply C; [intros t [<-|[]]; reflexivity|].
    rewrite (Lc fst 2); [lia|]. intros r Hr. destruct (Hrows r) as (? & ? & ? & ? & ->); [rewrite EAB; apply in_or_app; left; exact Hr | reflexivity].
  - exists (key * 2), ((key + 1) * 2). split; [apply Zs; lia|]. split; [apply Zs; lia|]. rewrite EAB, map_app. cbn [map]. rewrite concat_app. cbn [concat snd].
    pose proof (chunk_get 3 [[e1; x; y]; [e0; y; x]] ltac:(lia)) as C. replace ((key + 1) * 2) with (key * 2 + zlen [[e1; x; y]; [e0; y; x]]) by (change (zlen [[e1; x; y]; [e0; y; x]]) with 2; lia). apply C; [intros t [<-|[<-|[]]]; reflexivity|].
    rewrite (Lc (fun r => concat (snd r)) 6); [lia|]. intros r Hr. destruct (Hrows r) as (? & ? & ? & ? & ->); [rewrite EAB; apply in_or_app; left; exact Hr | reflexivity].
  - intros R rO rI radd rmul rsub ropp rt c. destruct H as (_ & _ & _ & _ & _ & _ & _ & t & u & Htu & T1 & T2). exact (swap_area rO rI radd rmul rsub ropp rt c e0 e1 x y t u tris Htu T1 T2).
  - intros p q. destruct H as (_ & _ & _ & _ & _ & _ & Hd & t & u & Htu & T1 & T2). unfold boundary_edge. rewrite (users_two e0 e1 x y t u tris p q Htu T1 T2). apply (swap_edges e0 e1 x y p q Hd).
  - intros p q. destruct H as (_ & _ & _ & _ & _ & _ & Hd & _). apply (swap_edges e0 e1 x y p q Hd).
  - destruct H as (_ & _ & _ & _ & _ & _ & Hd & _). apply (swap_edges e0 e1 x y e0 e1 Hd). left. auto.
Qed.
