(** Proofs about splitting quadrilaterals and hexahedra into simplices. *)
From Verif Require Import Prelude M_Array M_Scan M_Sort M_Swap3d M_Template M_Simplify.
From Verif Require Import S_Scan S_Template S_Align S_Simplify P_Array P_Scan P_SwapTopo P_Fan P_Refine.
Local Open Scope Z_scope.

(* ---------------------------------------------------------------- *)
(** the smallest entry *)
Lemma find_min_fold x n : forall k i, 0 <= i -> i + Z.of_nat k = n -> forall m v, 0 <= m < i -> v = x m -> (forall p, 0 <= p < i -> x m <= x p) ->
  exists m' v', foldM (fun '(min_i, min_v) i => vi <- zget (map x (zrange n)) i ;; Ok (if vi <? min_v then (i, vi) else (min_i, min_v))) (zfromto i n) (m, v) = Ok (m', v')
    /\ 0 <= m' < n /\ v' = x m' /\ forall p, 0 <= p < n -> x m' <= x p.
Proof.
  induction k as [|k IH]; intros i Hi Hn m v Hm Hv Hmin.
  - assert (i = n) by lia. subst i. unfold zfromto. rewrite Z.sub_diag. cbn.
    exists m, v. repeat split; try lia; auto.
  - rewrite zfromto_cons by lia. cbn [foldM].
    rewrite zget_map, zget_zrange by lia. cbn [bind]. 
    destruct (x i <? v) eqn:E.
    + apply Z.ltb_lt in E. apply IH; try lia. intros p Hp. destruct (Z.eq_dec p i); [subst; lia|]. specialize (Hmin p). lia.
    + apply Z.ltb_ge in E. apply IH; try lia. intros p Hp. destruct (Z.eq_dec p i); [subst; lia|]. apply Hmin. lia.
Qed.
Lemma find_min_ok x n : 0 < n -> exists m, find_min (map x (zrange n)) = Ok m /\ 0 <= m < n /\ forall p, 0 <= p < n -> x m <= x p.
Proof.
  intros Hn. unfold find_min. rewrite zget_map, zget_zrange by lia. cbn [bind]. rewrite zlen_map, zlen_zrange by lia.
  destruct (find_min_fold x n (Z.to_nat (n - 1)) 1 ltac:(lia) ltac:(lia) 0 (x 0) ltac:(lia) eq_refl) as (m & v & E & A & _ & B).
  - intros p Hp. replace p with 0 by lia. lia.
  - rewrite E. cbn [bind fst]. exists m. auto.
Qed.

Lemma corners_cases (P : Z -> Prop) : P 0 -> P 1 -> P 2 -> P 3 -> P 4 -> P 5 -> P 6 -> P 7 -> forall m, 0 <= m < 8 -> P m.
Proof.
  intros. assert (m = 0 \/ m = 1 \/ m = 2 \/ m = 3 \/ m = 4 \/ m = 5 \/ m = 6 \/ m = 7) as K by lia.
  destruct K as [->|[->|[->|[->|[->|[->|[->| ->]]]]]]]; assumption.
Qed.

Definition argmin (x : Z -> Z) (n : Z) : Z := match find_min (map x (zrange n)) with Ok m => m | _ => 0 end.
Lemma argmin_ok x n : 0 < n -> find_min (map x (zrange n)) = Ok (argmin x n) /\ 0 <= argmin x n < n /\ forall p, 0 <= p < n -> x (argmin x n) <= x p.
Proof. intros H. unfold argmin. destruct (find_min_ok x n H) as (m & E & K). rewrite E. auto. Qed.

(* ---------------------------------------------------------------- *)
(** hexahedra *)
Definition diags (x : Z -> Z) (m : Z) : list bool := map (first_diagonal x) (far_faces m).
Definition tets_of (m : Z) (ds : list bool) : list (list Z) := match template_tets (seen_from m) ds with Ok ps => ps | _ => [] end.
Definition hex_tets (x : Z -> Z) : list (list Z) := tets_of (argmin x 8) (diags x (argmin x 8)).

Lemma read_row (k : Z) (v : list Z) h x : (forall p, 0 <= p < k -> zget v (h * k + p) = Ok (x p)) -> mapM (fun i => zget v (h * k + i)) (zrange k) = Ok (map x (zrange k)).
Proof. intros H. apply mapM_map_ok. intros p Hp. apply in_zrange in Hp. apply H, Hp. Qed.

Lemma turn_hex_seen (x : Z -> Z) : forall m, 0 <= m < 8 -> turn_hex (map x (zrange 8)) m = Ok (map x (seen_from m)).
Proof. apply corners_cases; reflexivity. Qed.
Lemma diags_seen (x : Z -> Z) : forall m, 0 <= m < 8 ->
  mapM (fun face => f <- entries (map x (seen_from m)) face ;; match f with [f0; f1; f2; f3] => Ok (lt f0 f2 f1 f3) | _ => UB end) hex_bur_faces = Ok (diags x m).
Proof. apply corners_cases; reflexivity. Qed.
Lemma hex_1_ok hv2v h x : (forall p, 0 <= p < 8 -> zget hv2v (h * 8 + p) = Ok (x p)) ->
  tets_from_hex_1 h hv2v = Ok (map x (seen_from (argmin x 8)), diags x (argmin x 8)).
Proof.
  intros H. unfold tets_from_hex_1. rewrite (read_row 8 hv2v h x H). cbn [bind]. destruct (argmin_ok x 8 ltac:(lia)) as (E & B & _). rewrite E. cbn [bind].
  rewrite turn_hex_seen by exact B. cbn [bind]. rewrite diags_seen by exact B. reflexivity.
Qed.

Lemma diags_three x m : 0 <= m < 8 -> exists a b c, diags x m = [a; b; c] /\ exists f0 f1 f2, far_faces m = [f0; f1; f2] /\ first_diagonal x f1 = b /\ first_diagonal x f2 = c.
Proof. revert m. apply corners_cases; do 3 eexists; (split; [reflexivity | do 3 eexists; split; [reflexivity | split; reflexivity]]). Qed.

Lemma tets_seen (x : Z -> Z) a b c : forall m, 0 <= m < 8 -> template_tets (map x (seen_from m)) [a; b; c] = Ok (map (map x) (tets_of m [a; b; c])).
Proof. apply corners_cases; destruct a, b, c; reflexivity. Qed.

Fixpoint nodupb (l : list Z) : bool := match l with [] => true | x :: l => negb (existsb (Z.eqb x) l) && nodupb l end.
Lemma nodupb_ok l : nodupb l = true -> NoDup l.
Proof.
  induction l as [|x l IH]; cbn [nodupb]; intros H; [constructor|]. apply andb_true_iff in H as [A B]. constructor; [|auto]. intros I. apply negb_true_iff in A.
  assert (existsb (Z.eqb x) l = true) as K by (apply existsb_exists; exists x; split; [exact I | apply Z.eqb_refl]). congruence.
Qed.
Definition well_corneredb (k n : Z) (t : list Z) : bool := (zlen t =? k) && nodupb t && forallb (fun p => (0 <=? p) && (p <? n)) t.
Lemma well_cornered_b k n t : well_corneredb k n t = true -> well_cornered k n t.
Proof.
  unfold well_corneredb, well_cornered. intros H. apply andb_true_iff in H as [H F]. apply andb_true_iff in H as [L N]. apply Z.eqb_eq in L.
  split; [exact L|]. split; [apply nodupb_ok, N|]. apply Forall_forall. intros p Hp. rewrite forallb_forall in F. specialize (F p Hp). lia.
Qed.
Lemma tets_of_shape a b c : forall m, 0 <= m < 8 -> zlen (tets_of m [a; b; c]) = (if a || b || c then 6 else 5) /\ Forall (well_cornered 4 8) (tets_of m [a; b; c]).
Proof.
  intros m Hm. assert (forallb (well_corneredb 4 8) (tets_of m [a; b; c]) = true /\ zlen (tets_of m [a; b; c]) = (if a || b || c then 6 else 5)) as [K1 K2].
  { revert m Hm. apply corners_cases; destruct a, b, c; split; reflexivity. }
  split; [exact K2|]. apply Forall_forall. intros t Ht. apply well_cornered_b. rewrite forallb_forall in K1. auto.
Qed.

Lemma hex_tets_shape x : (zlen (hex_tets x) = 5 \/ zlen (hex_tets x) = 6) /\ Forall (well_cornered 4 8) (hex_tets x).
Proof.
  unfold hex_tets. destruct (argmin_ok x 8 ltac:(lia)) as (_ & B & _). destruct (diags_three x _ B) as (a & b & c & E & _). rewrite E.
  destruct (tets_of_shape a b c _ B) as [L F]. split; [|exact F]. rewrite L. destruct (a || b || c); auto.
Qed.

Lemma concat_twice {A} (l : list (list (list A))) : concat (map (@concat A) l) = concat (concat l).
Proof. induction l as [|a l IH]; [reflexivity|]. cbn [map concat]. rewrite concat_app, IH. reflexivity. Qed.
Lemma hexes_ok nh hv2v x : 0 <= nh -> zlen hv2v = nh * 8 -> (forall h p, 0 <= h < nh -> 0 <= p < 8 -> zget hv2v (h * 8 + p) = Ok (x h p)) ->
  tets_from_hexes hv2v = Ok (concat (flat_map (fun h => map (map (x h)) (hex_tets (x h))) (zrange nh))).
Proof.
  intros Hn HL HG. set (L := map (fun h => map (map (x h)) (hex_tets (x h))) (zrange nh)).
  assert (zlen L = nh) as LL by (unfold L; rewrite zlen_map, zlen_zrange; lia).
  assert (forall ts, In ts L -> forall t, In t ts -> zlen t = 4) as HW.
  { intros ts Hts t Ht. apply in_map_iff in Hts as (h & <- & Hh). apply in_map_iff in Ht as (t0 & <- & Ht). rewrite zlen_map.
    destruct (hex_tets_shape (x h)) as [_ F]. rewrite Forall_forall in F. apply F, Ht. }
  unfold tets_from_hexes. unfold divide_no_remainder. rewrite HL, Z.rem_mul, Z.quot_mul by lia. cbn [check negb Z.eqb bind].
  rewrite (proj2 (tabulate_ok nh _ (map zlen L) Hn)).
  2:{ split; [rewrite zlen_map; exact LL|]. intros h Hh. rewrite (hex_1_ok hv2v h (x h)) by (intros; apply HG; auto). cbn [bind snd]. eexists. split; [reflexivity|].
    unfold L. rewrite map_map. rewrite zget_map, zget_zrange by exact Hh. cbn [bind]. rewrite zlen_map. f_equal. unfold hex_tets.
    destruct (argmin_ok (x h) 8 ltac:(lia)) as (_ & B & _). destruct (diags_three (x h) _ B) as (a & b & c & E & _). rewrite E. destruct (tets_of_shape a b c _ B) as [-> _]. destruct a, b, c; reflexivity. }
  cbn [bind]. rewrite offset_scan_last. cbn [bind]. rewrite <- (zlen_flat 4) by exact HW. rewrite blank_ok by apply zlen_nonneg. cbn [bind]. rewrite <- LL at 1.
  rewrite (write_keys 4 L); [|exact HW|].
  - cbn [bind]. rewrite (proj2 (freeze_ok _ (flat 4 L)) eq_refl). unfold flat, L. rewrite flat_map_concat_map, concat_twice. reflexivity.
  - intros j rows out Ej. assert (j < length L)%nat as Hj by (apply nth_error_Some; congruence). assert (0 <= Z.of_nat j < nh) as Hh by (unfold zlen in LL; lia).
    rewrite (hex_1_ok hv2v (Z.of_nat j) (x (Z.of_nat j))) by (intros; apply HG; auto). cbn [bind fst snd].
    assert (rows = map (map (x (Z.of_nat j))) (hex_tets (x (Z.of_nat j)))) as ->.
    { assert (zget L (Z.of_nat j) = Ok rows) as G by (apply zget_ok; rewrite Nat2Z.id; split; [lia | exact Ej]). unfold L in G. rewrite zget_map, zget_zrange in G by exact Hh. cbn [bind] in G. congruence. }
    unfold hex_tets. destruct (argmin_ok (x (Z.of_nat j)) 8 ltac:(lia)) as (_ & B & _). destruct (diags_three (x (Z.of_nat j)) _ B) as (a & b & c & E & _). rewrite E. rewrite tets_seen by exact B. reflexivity.
Qed.

(** the split is right exactly if the diagonals of the faces at the back and on top agree *)
Definition hex_surface (bits : list bool) : list (list Z) := flat_map (fun '(b, q) => halves_by b q) (combine bits hex_faces).
Definition splitsb (surface tets : list (list Z)) : bool :=
  forallb (fun t => 0 <? corner_volume6 t) tets && (zsum (map corner_volume6 tets) =? 6) && forallb (fun tri => times_used tri tets =? 1) surface &&
  forallb (fun t => forallb (fun s => existsb (fun tri => same_corners tri s) surface || (times_used s tets =? 2)) (tet_sides t)) tets.
Lemma splits_b x tets : splits_hex x tets <-> splitsb (flat_map (halves x) hex_faces) tets = true.
Proof.
  unfold splits_hex, splitsb. rewrite !andb_true_iff, !forallb_forall, Z.eqb_eq. split.
  - intros (A & B & C & D). split; [split; [split|]|]; auto.
    + intros t Ht. apply Z.ltb_lt, A, Ht.
    + intros t Ht. apply Z.eqb_eq, C, Ht.
    + intros t Ht. apply forallb_forall. intros s Hs. apply orb_true_iff. destruct (D t s Ht Hs) as [(tri & I & E)|E]; [left; apply existsb_exists; eauto | right; apply Z.eqb_eq, E].
  - intros [[[A B] C] D]. repeat split; auto.
    + intros t Ht. apply Z.ltb_lt, A, Ht.
    + intros t Ht. apply Z.eqb_eq, C, Ht.
    + intros t s Ht Hs. specialize (D t Ht). rewrite forallb_forall in D. specialize (D s Hs). apply orb_true_iff in D as [D|D]; [left; apply existsb_exists in D; exact D | right; apply Z.eqb_eq, D].
Qed.

(** the diagonals of the faces, given the place of the smallest vertex and the diagonals at the far corner *)
Definition face_bit (m : Z) (ds : list bool) (q : list Z) : bool :=
  let odd_in p := match q with [a; b; c; d] => (p =? a) || (p =? c) | _ => false end in
  if existsb (Z.eqb m) q then odd_in m
  else match filter (fun '(f, d) => same_corners f q) (combine (far_faces m) ds) with (f, d) :: _ => Bool.eqb d (odd_in (hd 0 f)) | [] => false end.
Definition face_bits (m : Z) (ds : list bool) : list bool := map (face_bit m ds) hex_faces.

Lemma min_swap a b c d : a <> b -> a <> d -> c <> b -> c <> d -> (Z.min b d <? Z.min a c) = negb (Z.min a c <? Z.min b d).
Proof. intros. destruct (Z.ltb_spec (Z.min b d) (Z.min a c)), (Z.ltb_spec (Z.min a c) (Z.min b d)); cbn; lia. Qed.


Lemma eqb_true b : Bool.eqb b true = b. Proof. destruct b; reflexivity. Qed.
Lemma eqb_false b : Bool.eqb b false = negb b. Proof. destruct b; reflexivity. Qed.

Lemma hex_faces_eq : hex_faces = [[1; 0; 3; 2]; [0; 1; 5; 4]; [1; 2; 6; 5]; [2; 3; 7; 6]; [3; 0; 4; 7]; [4; 5; 6; 7]].
Proof. reflexivity. Qed.
Lemma face_bits_ok x : distinct_corners 8 x -> forall m, 0 <= m < 8 -> smallest_at x m -> map (first_diagonal x) hex_faces = face_bits m (diags x m).
Proof.
  intros D. assert (forall p q, (0 <=? p) && (p <? 8) && (0 <=? q) && (q <? 8) && negb (p =? q) = true -> x p <> x q) as N by (intros p q Hpq E; apply D in E; lia).
  clear D.
  apply (corners_cases (fun m => smallest_at x m -> map (first_diagonal x) hex_faces = face_bits m (diags x m)));
  intros [_ S];
  match type of S with forall p, _ -> p <> ?m -> _ =>
    assert (forall p, (0 <=? p) && (p <? 8) && negb (p =? m) = true -> x m < x p) as S' by (intros p Hp; apply S; lia) end; clear S;
  try specialize (S' 0 eq_refl) as M0; try specialize (S' 1 eq_refl) as M1; try specialize (S' 2 eq_refl) as M2; try specialize (S' 3 eq_refl) as M3;
  try specialize (S' 4 eq_refl) as M4; try specialize (S' 5 eq_refl) as M5; try specialize (S' 6 eq_refl) as M6; try specialize (S' 7 eq_refl) as M7; clear S';
  unfold face_bits; rewrite hex_faces_eq; cbv - [Z.min Z.ltb Bool.eqb Z.lt not]; rewrite ?eqb_true, ?eqb_false;
  (apply f_equal2; [|apply f_equal2; [|apply f_equal2; [|apply f_equal2; [|apply f_equal2; [|apply f_equal2; [|reflexivity]]]]]]);
  first [reflexivity | apply Z.ltb_lt; clear N; lia | apply Z.ltb_ge; clear N; lia |
    match goal with |- (Z.min (x ?a) (x ?c) <? Z.min (x ?b) (x ?d)) = _ =>
      pose proof (N a b eq_refl); pose proof (N a d eq_refl); pose proof (N c b eq_refl); pose proof (N c d eq_refl) end;
    clear N;
    match goal with |- (?u <? ?v) = _ => destruct (Z.ltb_spec u v) end;
    match goal with |- context [?u <? ?v] => destruct (Z.ltb_spec u v) end; cbn [negb]; try reflexivity; exfalso; lia].
Qed.

Lemma argmin_smallest x m : distinct_corners 8 x -> smallest_at x m -> argmin x 8 = m.
Proof.
  intros D [Hm S]. destruct (argmin_ok x 8 ltac:(lia)) as (_ & B & M). destruct (Z.eq_dec (argmin x 8) m) as [E|E]; [exact E|]. specialize (S _ B E). specialize (M m Hm). lia.
Qed.
Lemma smallest_exists x : distinct_corners 8 x -> exists m, smallest_at x m.
Proof.
  intros D. destruct (argmin_ok x 8 ltac:(lia)) as (_ & B & M). exists (argmin x 8). split; [exact B|]. intros p Hp Hne. specialize (M p Hp). assert (x (argmin x 8) <> x p); [|lia]. intros E. apply Hne. symmetry. apply D; auto.
Qed.

Lemma surface_bits x : flat_map (halves x) hex_faces = hex_surface (map (first_diagonal x) hex_faces).
Proof. reflexivity. Qed.
Lemma split_cases a b c : forall m, 0 <= m < 8 -> splitsb (hex_surface (face_bits m [a; b; c])) (tets_of m [a; b; c]) = Bool.eqb b c.
Proof. apply corners_cases; destruct a, b, c; vm_compute; reflexivity. Qed.

Lemma hex_split_right x m : distinct_corners 8 x -> smallest_at x m -> (splits_hex x (hex_tets x) <-> back_and_top_agree x m).
Proof.
  intros D S. assert (0 <= m < 8) as Hm by apply S. rewrite splits_b, surface_bits, (face_bits_ok x D m Hm S). unfold hex_tets. rewrite (argmin_smallest x m D S).
  destruct (diags_three x m Hm) as (a & b & c & E & f0 & f1 & f2 & F & E1 & E2). rewrite E, split_cases by exact Hm. unfold back_and_top_agree. rewrite F, E1, E2. apply Bool.eqb_true_iff.
Qed.

(* ---------------------------------------------------------------- *)
(** quadrilaterals *)
Definition quad_pieces (x : Z -> Z) : list (list Z) :=
  nth (Z.to_nat (argmin x 4)) [[[0; 1; 2]; [2; 3; 0]]; [[1; 2; 3]; [3; 0; 1]]; [[2; 3; 0]; [0; 1; 2]]; [[3; 0; 1]; [1; 2; 3]]] [].
Lemma quads_ok nq qv2v x : 0 <= nq -> zlen qv2v = nq * 4 -> (forall q p, 0 <= q < nq -> 0 <= p < 4 -> zget qv2v (q * 4 + p) = Ok (x q p)) ->
  tris_from_quads qv2v = Ok (concat (flat_map (fun q => map (map (x q)) (quad_pieces (x q))) (zrange nq))).
Proof.
  intros Hn HL HG. unfold tris_from_quads. unfold divide_no_remainder. rewrite HL, Z.rem_mul, Z.quot_mul by lia. cbn [check negb Z.eqb bind].
  rewrite (proj2 (tabulate_ok nq _ (map (fun q => map (map (x q)) (quad_pieces (x q))) (zrange nq)) Hn)).
  - cbn [bind]. rewrite flat_map_concat_map, concat_twice. reflexivity.
  - split; [rewrite zlen_map, zlen_zrange; lia|]. intros q Hq. rewrite zget_map, zget_zrange by exact Hq. cbn [bind]. eexists. split; [|reflexivity].
    unfold quad_tris. rewrite (read_row 4 qv2v q (x q)) by (intros; apply HG; auto). cbn [bind]. destruct (argmin_ok (x q) 4 ltac:(lia)) as (E & B & _). rewrite E. cbn [bind]. unfold quad_pieces.
    assert (argmin (x q) 4 = 0 \/ argmin (x q) 4 = 1 \/ argmin (x q) 4 = 2 \/ argmin (x q) 4 = 3) as K by lia. destruct K as [-> | [-> | [-> | ->]]]; reflexivity.
Qed.
Lemma quad_split_right x : distinct_corners 4 x -> splits_quad x (quad_pieces x) /\ Forall (well_cornered 3 4) (quad_pieces x).
Proof.
  intros D. destruct (argmin_ok x 4 ltac:(lia)) as (_ & B & M). unfold quad_pieces, splits_quad, halves, first_diagonal.
  assert (forall p q, 0 <= p < 4 -> 0 <= q < 4 -> p <> q -> x p <> x q) as N by (intros p q Hp Hq Hpq E; apply Hpq, D; auto).
  pose proof (N 0 1 ltac:(lia) ltac:(lia) ltac:(lia)). pose proof (N 0 3 ltac:(lia) ltac:(lia) ltac:(lia)). pose proof (N 2 1 ltac:(lia) ltac:(lia) ltac:(lia)). pose proof (N 2 3 ltac:(lia) ltac:(lia) ltac:(lia)).
  pose proof (M 0 ltac:(lia)). pose proof (M 1 ltac:(lia)). pose proof (M 2 ltac:(lia)). pose proof (M 3 ltac:(lia)).
  assert (argmin x 4 = 0 \/ argmin x 4 = 1 \/ argmin x 4 = 2 \/ argmin x 4 = 3) as K by lia. clear M N D.
  assert (forall a b c : Z, forwards [a; b; c] [a; b; c]) as R by (intros; exists [], [a; b; c]; auto).
  destruct K as [E | [E | [E | E]]]; rewrite E in *; (destruct (Z.ltb_spec (Z.min (x 0) (x 2)) (Z.min (x 1) (x 3))); [try (exfalso; lia) | try (exfalso; lia)]);
  (split; [split; [reflexivity|]; intros half [<-|[<-|[]]]; eexists; (split; [|apply R]); cbn; auto | ]);
  repeat constructor; cbn; try lia; intuition lia.
Qed.

Lemma partial_quads qv2v : zlen qv2v mod 4 <> 0 -> tris_from_quads qv2v = Abort.
Proof.
  intros H. unfold tris_from_quads, divide_no_remainder. cbn [Z.eqb negb check bind]. rewrite Z.rem_mod_nonneg by (pose proof (zlen_nonneg qv2v); lia).
  destruct (Z.eqb_spec (zlen qv2v mod 4) 0); [contradiction | reflexivity].
Qed.
Lemma partial_hexes hv2v : zlen hv2v mod 8 <> 0 -> tets_from_hexes hv2v = Abort.
Proof.
  intros H. unfold tets_from_hexes, divide_no_remainder. cbn [Z.eqb negb check bind]. rewrite Z.rem_mod_nonneg by (pose proof (zlen_nonneg hv2v); lia).
  destruct (Z.eqb_spec (zlen hv2v mod 8) 0); [contradiction | reflexivity].
Qed.

(** two elements that share a quadrilateral cut it the same way *)
Lemma rotations4 {A} (a b c d : A) l : forwards [a; b; c; d] l -> l = [a; b; c; d] \/ l = [b; c; d; a] \/ l = [c; d; a; b] \/ l = [d; a; b; c].
Proof.
  intros (u & v & E & ->).
  destruct u as [|u0 [|u1 [|u2 [|u3 u]]]]; cbn [app] in E; [subst v; cbn; auto | injection E as <- <-; cbn; auto | injection E as <- <- <-; cbn; auto | injection E as <- <- <- <-; cbn; auto |].
  injection E as <- <- <- <- E. symmetry in E. apply app_eq_nil in E as [-> ->]. auto.
Qed.
Lemma shared_halves x x' q q' : zlen q = 4 -> NoDup (map x q) -> same_polygon (map x q) (map x' q') ->
  forall half, In half (halves x q) -> exists half', In half' (halves x' q') /\ same_set (map x half) (map x' half').
Proof.
  intros L N P half H. destruct q as [|a [|b [|c [|d [|e q]]]]]; try (unfold zlen in L; cbn in L; lia).
  assert (length q' = 4%nat) as L'. { destruct P as [(u & v & E1 & E2)|(u & v & E1 & E2)]; apply (f_equal (@length Z)) in E1, E2; rewrite app_length in E1, E2; cbn in E1; rewrite ?map_length in E2; lia. }
  destruct q' as [|a' [|b' [|c' [|d' [|e' q']]]]]; try (cbn in L'; lia). clear L L'. cbn [map] in *.
  assert (x a <> x b /\ x a <> x d /\ x c <> x b /\ x c <> x d) as (N1 & N2 & N3 & N4).
  { inversion N as [|? ? I1 N1]; inversion N1 as [|? ? I2 N2]; inversion N2 as [|? ? I3 N3]; subst. cbn in *. repeat split; intros E; intuition congruence. }
  assert (forall u v w : Z, same_set [u; v; w] [u; v; w]) as R by (intros ? ? ? ?; tauto).
  unfold halves, first_diagonal in *.
  destruct P as [P|P]; cbn [rev app] in P; apply rotations4 in P; destruct P as [P|[P|[P|P]]]; injection P as Pa Pb Pc Pd; rewrite Pa, Pb, Pc, Pd;
  destruct (Z.ltb_spec (Z.min (x a) (x c)) (Z.min (x b) (x d))); 
  try (match goal with |- context [?u <? ?v] => destruct (Z.ltb_spec u v); try (exfalso; lia) end);
  destruct H as [<-|[<-|[]]]; cbn [halves_by In];
  first [ eexists; split; [left; reflexivity | cbn [map]; rewrite ?Pa, ?Pb, ?Pc, ?Pd; intros y; cbn [In]; tauto]
        | eexists; split; [right; left; reflexivity | cbn [map]; rewrite ?Pa, ?Pb, ?Pc, ?Pd; intros y; cbn [In]; tauto] ].
Qed.
