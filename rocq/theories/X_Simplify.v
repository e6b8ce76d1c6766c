(** Example data for C66: two hexahedra side by side as a box has them, and one whose vertices come in the order of its corners. *)
From Verif Require Import Prelude M_Template S_Template S_Align M_Simplify S_Simplify P_Simplify.
Local Open Scope Z_scope.

Definition two_hexes : list Z := [0; 1; 4; 3; 6; 7; 10; 9; 1; 2; 5; 4; 7; 8; 11; 10].
Definition hex_vertex (h p : Z) : Z := match zget two_hexes (h * 8 + p) with Ok v => v | _ => 0 end.
Lemma two_hexes_corners h p : 0 <= h < 2 -> 0 <= p < 8 -> zget two_hexes (h * 8 + p) = Ok (hex_vertex h p).
Proof. intros Hh Hp. unfold hex_vertex. destruct (zget_in_range two_hexes (h * 8 + p)) as (v & ->); [cbn; lia | reflexivity]. Qed.
Lemma hex_vertex_distinct h : 0 <= h < 2 -> distinct_corners 8 (hex_vertex h).
Proof.
  intros Hh. assert (h = 0 \/ h = 1) as K by lia.
  assert (forallb (fun p => forallb (fun q => negb (hex_vertex h p =? hex_vertex h q) || (p =? q)) (zrange 8)) (zrange 8) = true) as E by (destruct K as [->| ->]; vm_compute; reflexivity).
  intros p q Hp Hq E'. rewrite forallb_forall in E. specialize (E p (proj2 (in_zrange _ _) Hp)). rewrite forallb_forall in E. specialize (E q (proj2 (in_zrange _ _) Hq)). lia.
Qed.
Lemma hex_vertex_smallest h : 0 <= h < 2 -> smallest_at (hex_vertex h) 0 /\ back_and_top_agree (hex_vertex h) 0.
Proof.
  intros Hh. assert (h = 0 \/ h = 1) as K by lia. split; [|destruct K as [->| ->]; vm_compute; reflexivity]. split; [lia|].
  apply (corners_cases (fun p => p <> 0 -> hex_vertex h 0 < hex_vertex h p)); destruct K as [->| ->]; intros; vm_compute; try reflexivity; contradiction.
Qed.

(** corner [p] has vertex [p] *)
Definition in_order (p : Z) : Z := p.
Lemma in_order_distinct : distinct_corners 8 in_order.
Proof. intros p q _ _ E. exact E. Qed.
Definition in_order_tets : list (list Z) := [[0; 2; 1; 6]; [0; 5; 4; 6]; [0; 4; 2; 6]; [0; 3; 7; 1]; [0; 5; 6; 7]; [0; 6; 1; 7]].
Lemma not_split : ~ forall hv2v x ps, zlen hv2v = 8 -> (forall p, 0 <= p < 8 -> zget hv2v p = Ok (x p)) -> distinct_corners 8 x ->
  Forall (well_cornered 4 8) ps -> tets_from_hexes hv2v = Ok (concat (map (map x) ps)) -> splits_hex x ps.
Proof.
  intros H. specialize (H (zrange 8) in_order (hex_tets in_order) eq_refl).
  assert (smallest_at in_order 0) as S by (split; [lia | intros p Hp Hn; unfold in_order; lia]).
  assert (splits_hex in_order (hex_tets in_order)) as K.
  { apply H; [intros p Hp; apply zget_zrange, Hp | exact in_order_distinct | apply hex_tets_shape | vm_compute; reflexivity]. }
  apply (proj1 (hex_split_right in_order 0 in_order_distinct S)) in K. vm_compute in K. discriminate.
Qed.

Lemma hexes_split nh hv2v x : 0 <= nh -> zlen hv2v = nh * 8 -> (forall h p, 0 <= h < nh -> 0 <= p < 8 -> zget hv2v (h * 8 + p) = Ok (x h p)) ->
  exists ps, tets_from_hexes hv2v = Ok (concat (flat_map (fun h => map (map (x h)) (ps h)) (zrange nh))) /\
    forall h, 0 <= h < nh -> (zlen (ps h) = 5 \/ zlen (ps h) = 6) /\ Forall (well_cornered 4 8) (ps h) /\
      forall m, distinct_corners 8 (x h) -> smallest_at (x h) m -> (splits_hex (x h) (ps h) <-> back_and_top_agree (x h) m).
Proof.
  intros Hn HL HG. exists (fun h => hex_tets (x h)). split; [apply hexes_ok; auto|]. intros h Hh. destruct (hex_tets_shape (x h)) as [A B]. split; [exact A|]. split; [exact B|].
  intros m D S. apply hex_split_right; auto.
Qed.
Lemma quads_split nq qv2v x : 0 <= nq -> zlen qv2v = nq * 4 -> (forall q p, 0 <= q < nq -> 0 <= p < 4 -> zget qv2v (q * 4 + p) = Ok (x q p)) ->
  exists ps, tris_from_quads qv2v = Ok (concat (flat_map (fun q => map (map (x q)) (ps q)) (zrange nq))) /\
    forall q, 0 <= q < nq -> distinct_corners 4 (x q) -> splits_quad (x q) (ps q) /\ Forall (well_cornered 3 4) (ps q).
Proof.
  intros Hn HL HG. exists (fun q => quad_pieces (x q)). split; [apply quads_ok; auto|]. intros q Hq D. apply quad_split_right, D.
Qed.
