(** Meshes that repeat the same pieces in every cell of a box. *)
From Coq Require Import Sorted.
From Verif Require Import Prelude M_Template S_Template S_Align S_Unique S_Adj P_Template P_Transit P_Unique P_Match P_Adj P_Simplify S_Simplify S_Box.
Local Open Scope Z_scope.

Definition eqpb (p q : point) : bool := let '(x, y, z) := p in let '(x', y', z') := q in (x =? x') && (y =? y') && (z =? z').
Lemma eqpb_ok p q : eqpb p q = true <-> p = q.
Proof. destruct p as [[x y] z], q as [[x' y'] z']. cbn. rewrite !andb_true_iff, !Z.eqb_eq. split; [intros [[-> ->] ->]; reflexivity | intros E; injection E as -> -> ->; auto]. Qed.
Definition memb (p : point) (l : list point) : bool := existsb (eqpb p) l.
Lemma memb_ok p l : memb p l = true <-> In p l.
Proof. unfold memb. rewrite existsb_exists. split; [intros (q & I & E); apply eqpb_ok in E; subst; exact I | intros I; exists p; split; [exact I | apply eqpb_ok; reflexivity]]. Qed.
Definition setb (l m : list point) : bool := forallb (fun p => memb p m) l && forallb (fun p => memb p l) m.
Lemma setb_ok l m : setb l m = true <-> forall p, In p l <-> In p m.
Proof.
  unfold setb. rewrite andb_true_iff, !forallb_forall. split.
  - intros [A B] p. split; intros H; apply memb_ok; auto.
  - intros H. split; intros p Hp; apply memb_ok, H, Hp.
Qed.

(** rotations and reversals *)
Fixpoint eqlb (l m : list point) : bool := match l, m with [], [] => true | p :: l, q :: m => eqpb p q && eqlb l m | _, _ => false end.
Lemma eqlb_ok l : forall m, eqlb l m = true -> l = m.
Proof. induction l as [|p l IH]; intros [|q m]; cbn; try discriminate; auto. intros H. apply andb_true_iff in H as [A B]. apply eqpb_ok in A. apply IH in B. congruence. Qed.
Definition turns (l : list point) : list (list point) := map (fun i => skipn i l ++ firstn i l) (seq 0 (length l)).
Definition polygonb (l m : list point) : bool := existsb (eqlb m) (turns l ++ turns (rev l)).
Lemma polygonb_ok l m : polygonb l m = true -> same_polygon l m.
Proof.
  unfold polygonb. intros H. apply existsb_exists in H as (t & I & E). apply eqlb_ok in E. subst t. apply in_app_or in I as [I|I]; apply in_map_iff in I as (i & <- & _); [left | right];
  (eexists; eexists; split; [symmetry; apply firstn_skipn | reflexivity]).
Qed.

Lemma plus_inj b p q : plus b p = plus b q -> p = q.
Proof. destruct b as [[x y] z], p as [[x1 y1] z1], q as [[x2 y2] z2]. cbn. intros E. injection E as E1 E2 E3. f_equal; [f_equal|]; lia. Qed.
Lemma axis_plus a p q : axis a (plus p q) = axis a p + axis a q.
Proof. destruct p as [[x y] z], q as [[x' y'] z']. cbn. destruct a as [|[?|?|]|?]; reflexivity. Qed.
Lemma axis_minus a p q : axis a (minus p q) = axis a p - axis a q.
Proof. destruct p as [[x y] z], q as [[x' y'] z']. cbn. destruct a as [|[?|?|]|?]; reflexivity. Qed.
Lemma point_axes p q : (forall a, 0 <= a < 3 -> axis a p = axis a q) -> p = q.
Proof.
  intros H. destruct p as [[x y] z], q as [[x' y'] z']. pose proof (H 0 ltac:(lia)) as H0. pose proof (H 1 ltac:(lia)) as H1. pose proof (H 2 ltac:(lia)) as H2. cbn in *. congruence.
Qed.
Lemma axis_twice a p : axis a (twice p) = 2 * axis a p.
Proof. destruct p as [[x y] z]. unfold twice, axis. destruct a as [|[?|?|]|?]; reflexivity. Qed.
Lemma twice_inj p q : twice p = twice q -> p = q.
Proof. intros E. apply point_axes. intros a _. apply (f_equal (axis a)) in E. rewrite !axis_twice in E. lia. Qed.
Lemma plus_minus b p : plus b (minus p b) = p.
Proof. apply point_axes. intros a _. rewrite axis_plus, axis_minus. lia. Qed.

Lemma polygon_map {A B} (g : A -> B) l m : same_polygon l m -> same_polygon (map g l) (map g m).
Proof. intros [(a & b & E & ->)|(a & b & E & ->)]; [left | right]; exists (map g a), (map g b); rewrite map_app; (split; [|reflexivity]); [rewrite E, map_app; reflexivity | rewrite <- map_rev, E, map_app; reflexivity]. Qed.
Lemma polygon_set {A} (l m : list A) : same_polygon l m -> forall x, In x l <-> In x m.
Proof.
  intros [(a & b & E & ->)|(a & b & E & ->)] x; [subst l | rewrite (in_rev l), E]; rewrite !in_app_iff; tauto.
Qed.
Lemma polygon_unmap {A B} (g : A -> B) (l m : list A) : (forall x y, In x l -> In y m -> g x = g y -> x = y) -> same_polygon (map g l) (map g m) -> same_polygon l m.
Proof.
  assert (forall l m : list A, (forall x y, In x l -> In y m -> g x = g y -> x = y) -> map g l = map g m -> l = m) as K.
  { clear. induction l as [|x l IH]; intros [|y m] H E; try discriminate; auto. cbn in E. injection E as E1 E2. f_equal; [apply H; [left; reflexivity | left; reflexivity | exact E1] | apply IH; [intros u v Hu Hv; apply H; right; assumption | exact E2]]. }
  assert (forall l m : list A, (forall x y, In x l -> In y m -> g x = g y -> x = y) -> forwards (map g l) (map g m) -> forwards l m) as F.
  { clear - K. intros l m H (a & b & E1 & E2). apply map_eq_app in E1 as (la & lb & -> & <- & <-). apply map_eq_app in E2 as (mb & ma & -> & E3 & E4).
    assert (mb = lb) as -> by (symmetry; apply K; [intros x y Hx Hy; apply H; apply in_or_app; auto | congruence]). assert (ma = la) as -> by (symmetry; apply K; [intros x y Hx Hy; apply H; apply in_or_app; auto | congruence]).
    exists la, lb. auto. }
  intros H [P|P]; [left; apply F; auto | right; apply F; [intros x y Hx Hy; apply H; [apply in_rev; exact Hx | exact Hy] | rewrite map_rev; exact P]].
Qed.

(* ---------------------------------------------------------------- *)
(** the cells of a box *)
Definition cell_of (nx ny c : Z) : point := (c mod nx, (c / nx) mod ny, c / nx / ny).
Definition base (nx ny c : Z) : point := twice (cell_of nx ny c).
Definition cell_number (nx ny : Z) (p : point) : Z := let '(i, j, k) := p in (k * ny + j) * nx + i.
Lemma number_of_cell nx ny c : 0 < nx -> 0 < ny -> cell_number nx ny (cell_of nx ny c) = c.
Proof. intros. unfold cell_number, cell_of. rewrite (Z.mul_comm _ ny), <- Z.div_mod by lia. rewrite Z.mul_comm, <- Z.div_mod; lia. Qed.
Lemma cell_of_number nx ny i j k : 0 <= i < nx -> 0 <= j < ny -> cell_of nx ny (cell_number nx ny (i, j, k)) = (i, j, k).
Proof.
  intros. unfold cell_of, cell_number. assert (((k * ny + j) * nx + i) / nx = k * ny + j) as -> by (rewrite Z.div_add_l by lia; rewrite Z.div_small by lia; lia).
  rewrite (Z.add_comm _ i), Z.mod_add, Z.mod_small by lia. rewrite (Z.add_comm (k * ny)), Z.mod_add, Z.mod_small, Z.div_add, Z.div_small by lia. f_equal.
Qed.
Lemma number_range nx ny nz i j k : 0 <= i < nx -> 0 <= j < ny -> 0 <= k < nz -> 0 <= cell_number nx ny (i, j, k) < nx * ny * nz.
Proof.
  intros Hi Hj Hk. unfold cell_number. assert (0 <= k * ny + j < ny * nz) as Hm by nia. set (m := k * ny + j) in *. clearbody m. replace (nx * ny * nz) with (nx * (ny * nz)) by ring. set (t := ny * nz) in *. clearbody t. nia.
Qed.
Lemma cell_range nx ny nz c : 0 < nx -> 0 < ny -> 0 <= c < nx * ny * nz -> let '(i, j, k) := cell_of nx ny c in 0 <= i < nx /\ 0 <= j < ny /\ 0 <= k < nz.
Proof.
  intros Hx Hy Hc. unfold cell_of. pose proof (Z.mod_pos_bound c nx Hx). pose proof (Z.mod_pos_bound (c / nx) ny Hy). split; [assumption|]. split; [assumption|].
  split; [apply Z.div_pos; [apply Z.div_pos|]; lia|]. apply Z.div_lt_upper_bound; [lia|]. apply Z.div_lt_upper_bound; [lia|]. nia.
Qed.
Lemma cell_inj nx ny c c' : 0 < nx -> 0 < ny -> base nx ny c = base nx ny c' -> c = c'.
Proof.
  intros Hx Hy E. rewrite <- (number_of_cell nx ny c), <- (number_of_cell nx ny c') by assumption. f_equal. apply twice_inj, E.
Qed.

(* ---------------------------------------------------------------- *)
(** the pieces in a cell, by their corners relative to the cell, and how their sides meet *)
Section pieces.
Context (f : family) (dim : Z) (pieces : list (list point)).
Definition side_points (offs : list point) (w : Z) : list point := map (fun i => nth (Z.to_nat i) offs (0, 0, 0)) (side_verts f dim (dim - 1) w).
Definition nsides : Z := element_degree f dim (dim - 1).
(** piece, side and its points *)
Definition sides_table : list (Z * Z * list point) :=
  flat_map (fun '(r, offs) => map (fun w => (r, w, side_points offs w)) (zrange nsides)) (combine (zrange (zlen pieces)) pieces).
Definition steps (a : Z) : list Z := if a <? dim then [0; -2; 2] else [0].
Definition deltas : list point := flat_map (fun x => flat_map (fun y => map (fun z => (x, y, z)) (steps 2)) (steps 1)) (steps 0).
Definition moved : list (point * (Z * Z * list point)) := flat_map (fun d => map (fun '(r, w, pts) => (d, (r, w, map (plus d) pts))) sides_table) deltas.
Definition along (a k : Z) : point := match a with 0 => (k, 0, 0) | 1 => (0, k, 0) | _ => (0, 0, k) end.
Definition flat_at (pts : list point) (a k : Z) : bool := forallb (fun p => axis a p =? k) pts.
(** [all] is [moved]: the two sides at [pts] are the side itself and another one, in the cell beyond the face of the
    cell it lies on if it lies on one *)
Definition side_ok (all : list (point * (Z * Z * list point))) (pts : list point) : bool :=
  let P := filter (fun '(_, (_, _, pts')) => setb pts' pts) all in
  match P with [(d, (r, w, _)); (d', (r', w', _))] => negb (eqpb d d' && (r =? r') && (w =? w')) | _ => false end &&
  forallb (fun '(d, (_, _, pts')) => polygonb pts pts' &&
    (eqpb d (0, 0, 0) || existsb (fun a => eqpb d (along a (-2)) && flat_at pts a 0 || eqpb d (along a 2) && flat_at pts a 2) (zrange dim))) P &&
  forallb (fun a => (negb (flat_at pts a 0) || existsb (fun '(d, _) => eqpb d (along a (-2))) P) && (negb (flat_at pts a 2) || existsb (fun '(d, _) => eqpb d (along a 2)) P)) (zrange dim) &&
  forallb (fun p => forallb (fun a => (0 <=? axis a p) && (axis a p <=? 2)) (zrange 3)) pts && negb (zlen pts =? 0).
Definition table_ok : bool := let all := moved in forallb (fun '(_, _, pts) => side_ok all pts) sides_table.
End pieces.

Lemma flat_at_ok pts a k : flat_at pts a k = true <-> forall p, In p pts -> axis a p = k.
Proof. unfold flat_at. rewrite forallb_forall. split; intros H p Hp; [apply Z.eqb_eq | apply Z.eqb_eq]; auto. Qed.

(** what the check of a side says *)
Definition key (x : point * (Z * Z * list point)) : point * Z * Z := let '(d, (r, w, _)) := x in (d, r, w).
Lemma side_ok_spec dim all pts : side_ok dim all pts = true -> forall x0, In x0 all -> (forall p, In p (snd (snd x0)) <-> In p pts) -> fst x0 = (0, 0, 0) ->
  exists x1, In x1 all /\ key x1 <> key x0 /\ (forall p, In p (snd (snd x1)) <-> In p pts) /\ same_polygon pts (snd (snd x1)) /\
    (forall x, In x all -> (forall p, In p (snd (snd x)) <-> In p pts) -> key x = key x0 \/ x = x1) /\
    (fst x1 = (0, 0, 0) \/ exists a, 0 <= a < dim /\ ((fst x1 = along a (-2) /\ forall p, In p pts -> axis a p = 0) \/ (fst x1 = along a 2 /\ forall p, In p pts -> axis a p = 2))) /\
    (forall a, 0 <= a < dim -> ((forall p, In p pts -> axis a p = 0) -> fst x1 = along a (-2)) /\ ((forall p, In p pts -> axis a p = 2) -> fst x1 = along a 2)) /\
    (forall p a, In p pts -> 0 <= a < 3 -> 0 <= axis a p <= 2) /\ exists p, In p pts.
Proof.
  unfold side_ok. set (P := filter _ all). intros H x0 I0 S0 D0. rewrite !andb_true_iff in H. destruct H as [[[[HK HP] HA] HR] HN].
  assert (forall x, In x P <-> In x all /\ forall p, In p (snd (snd x)) <-> In p pts) as MP.
  { intros [d [[r w] q]]. unfold P. rewrite filter_In, setb_ok. cbn [fst snd]. reflexivity. }
  destruct P as [|x [|y [|? ?]]] eqn:EP; [discriminate | destruct x as [? [[? ?] ?]]; discriminate | | destruct x as [? [[? ?] ?]], y as [? [[? ?] ?]]; discriminate].
  assert (key x <> key y) as NK.
  { destruct x as [d [[r w] q]], y as [d' [[r' w'] q']]. cbn. intros E. injection E as -> -> ->. apply negb_true_iff in HK. rewrite !Z.eqb_refl, (proj2 (eqpb_ok d' d') eq_refl) in HK. discriminate. }
  assert (In x0 [x; y]) as Ix0 by (apply MP; auto).
  assert (exists x1, In x1 [x; y] /\ key x1 <> key x0 /\ forall z, In z [x; y] -> key z = key x0 \/ z = x1) as (x1 & I1 & K1 & U1).
  { destruct Ix0 as [<-|[<-|[]]]; [exists y | exists x]; (split; [cbn; auto|]); (split; [congruence|]); intros z [<-|[<-|[]]]; auto. }
  exists x1. pose proof (proj1 (MP x1) I1) as [A1 S1]. split; [exact A1|]. split; [exact K1|]. split; [exact S1|].
  rewrite forallb_forall in HP. pose proof (HP x1 I1) as H1. destruct x1 as [d1 [[r1 w1] q1]]. cbn [fst snd] in *. apply andb_true_iff in H1 as [HPol HD]. split; [apply polygonb_ok, HPol|].
  split; [intros z Iz Sz; apply U1, MP; auto|]. split; [|split; [|split]].
  - apply orb_true_iff in HD as [HD|HD]; [left; apply eqpb_ok, HD|]. right. apply existsb_exists in HD as (a & Ia & Ha). apply in_zrange in Ia. exists a. split; [exact Ia|].
    apply orb_true_iff in Ha as [Ha|Ha]; apply andb_true_iff in Ha as [E F]; apply eqpb_ok in E; rewrite flat_at_ok in F; auto.
  - intros a Ha. rewrite forallb_forall in HA. specialize (HA a (proj2 (in_zrange _ _) Ha)). apply andb_true_iff in HA as [B1 B2].
    assert (forall k, existsb (fun '(d, _) => eqpb d (along a k)) [x; y] = true -> along a k <> (0, 0, 0) -> d1 = along a k) as K.
    { intros k E Ne. apply existsb_exists in E as ([d' [[r' w'] q']] & I' & E'). apply eqpb_ok in E'. subst d'. destruct (U1 _ I') as [E|E]; [|congruence]. exfalso. apply Ne. destruct x0 as [d0 [[r0 w0] q0]]. cbn in E, D0. congruence. }
    assert (forall k, k <> 0 -> along a k <> (0, 0, 0)) as Ne by (intros k Hk E; unfold along in E; destruct a as [|[?|?|]|?]; congruence).
    split; intros F; [apply orb_true_iff in B1 as [C|C] | apply orb_true_iff in B2 as [C|C]]; try (apply flat_at_ok in F; rewrite F in C; discriminate); apply K; try exact C; apply Ne; lia.
  - intros p a Hp Ha. rewrite forallb_forall in HR. specialize (HR p Hp). rewrite forallb_forall in HR. specialize (HR a (proj2 (in_zrange _ _) Ha)). lia.
  - destruct pts as [|p q]; [discriminate | exists p; left; reflexivity].
Qed.

Lemma in_deltas dim d : 1 <= dim -> (forall a, 0 <= a < 3 -> axis a d = 0 \/ (a < dim /\ (axis a d = -2 \/ axis a d = 2))) -> In d (deltas dim).
Proof.
  intros Hd H. assert (forall a, 0 <= a < 3 -> In (axis a d) (steps dim a)) as K.
  { intros a Ha. unfold steps. destruct (H a Ha) as [->|[L [->| ->]]]; destruct (Z.ltb_spec a dim); cbn; auto; lia. }
  destruct d as [[x y] z]. pose proof (K 0 ltac:(lia)) as K0. pose proof (K 1 ltac:(lia)) as K1. pose proof (K 2 ltac:(lia)) as K2. cbn [axis] in *.
  unfold deltas. apply in_flat_map. exists x. split; [exact K0|]. apply in_flat_map. exists y. split; [exact K1|]. apply in_map_iff. exists z. auto.
Qed.

(* ---------------------------------------------------------------- *)
Lemma nth_error_combine' {A B} (l : list A) (m : list B) k x y : nth_error l k = Some x -> nth_error m k = Some y -> nth_error (combine l m) k = Some (x, y).
Proof. revert m k. induction l as [|a l IH]; intros [|c m] [|k]; cbn; try discriminate; [congruence | apply IH]. Qed.
Lemma split_unique k e e' w w' : 0 <= w < k -> 0 <= w' < k -> e * k + w = e' * k + w' -> e = e' /\ w = w'.
Proof. intros Hw Hw' E. assert (e = e') as -> by nia. lia. Qed.
Section grid.
Context (f : family) (dim : Z) (pieces : list (list point)) (nx ny nz : Z).
Hypothesis Hdim : 1 <= dim <= 3.
Hypothesis Hx : 0 < nx.
Hypothesis Hy : 0 < ny.
Hypothesis Hz : 0 < nz.
Hypothesis Uy : dim < 2 -> ny = 1.
Hypothesis Uz : dim < 3 -> nz = 1.
Hypothesis Hpieces : pieces <> [].
Hypothesis Htable : table_ok f dim pieces = true.
Let np := zlen pieces.
Let nc := nx * ny * nz.
Let deg := element_degree f dim 0.
Let ns := element_degree f dim (dim - 1).
Let b (c : Z) : point := base nx ny c.
Context (ev2v : list Z) (place : Z -> point).
Hypothesis Hlen : zlen ev2v = nc * np * deg.
Hypothesis Hrow : forall e row, row_is deg ev2v e row -> exists offs, zget pieces (e mod np) = Ok offs /\ map place row = map (plus (b (e / np))) offs.
Hypothesis Happart : forall v w, In v ev2v -> In w ev2v -> place v = place w -> v = w.

Lemma np_pos : 0 < np.
Proof. clear - Hpieces. subst np. destruct pieces as [|p0 l0]; [contradiction|]. pose proof (zlen_nonneg l0) as K. rewrite zlen_cons. lia. Qed.
Lemma deg_pos : 0 < deg.
Proof. apply degree_pos; lia. Qed.
Lemma ns_pos : 0 < ns.
Proof. apply degree_pos; lia. Qed.

Definition sided (e w : Z) (row : list Z) : Prop := is_side f dim (dim - 1) ev2v e w row.

Lemma sided_range e w row : sided e w row -> 0 <= e < nc * np /\ 0 <= w < ns.
Proof. intros (hr & R & Hw & _). split; [eapply row_is_range; [exact deg_pos | exact Hlen | exact R] | exact Hw]. Qed.
Lemma sided_cell e : 0 <= e < nc * np -> 0 <= e / np < nc /\ 0 <= e mod np < np.
Proof. intros He. pose proof np_pos. split; [split; [apply Z.div_pos; lia | apply Z.div_lt_upper_bound; [lia|]; rewrite Z.mul_comm; lia] | apply Z.mod_pos_bound; lia]. Qed.

Lemma sided_points e w row : sided e w row -> exists pts, In (e mod np, w, pts) (sides_table f dim pieces) /\ map place row = map (plus (b (e / np))) pts.
Proof.
  intros Hs. pose proof (sided_range _ _ _ Hs) as [He Hw]. destruct Hs as (hr & R & _ & F). destruct (Hrow e hr R) as (offs & Eo & Ep).
  exists (side_points f dim offs w). split.
  - unfold sides_table. apply in_flat_map. exists (e mod np, offs). split.
    + apply zget_ok in Eo as [H0 Eo]. assert (nth_error (combine (zrange (zlen pieces)) pieces) (Z.to_nat (e mod np)) = Some (e mod np, offs)) as K; [|eapply nth_error_In, K].
      apply nth_error_combine'; [|exact Eo]. assert (Z.to_nat (e mod np) < length pieces)%nat as L by (apply nth_error_Some; congruence). rewrite zrange_nth; [f_equal; lia | unfold zlen; lia].
    + apply in_map_iff. exists w. split; [reflexivity | apply in_zrange; exact Hw].
  - unfold side_points. clear - F Ep. induction F as [|v x vs xs E _ IH]; [reflexivity|]. cbn [map]. apply f_equal2; [|exact IH].
    assert (zget (map place hr) v = Ok (place x)) as G by (rewrite zget_map, E; reflexivity). rewrite Ep, zget_map in G. apply bind_ok in G as (o & Go & E').
    apply zget_ok in Go as [_ Go]. apply (nth_error_nth _ _ (0, 0, 0)) in Go. enough (@nth point (Z.to_nat v) offs (0, 0, 0) = o) as -> by congruence. exact Go.
Qed.

Lemma sided_in e w row v : sided e w row -> In v row -> In v ev2v.
Proof. intros H. eapply side_value; [exact H | lia | lia]. Qed.

Definition n (a : Z) : Z := match a with 0 => nx | 1 => ny | _ => nz end.
Lemma base_range c a : 0 <= c < nc -> 0 <= a < 3 -> exists i, axis a (b c) = 2 * i /\ 0 <= i < n a.
Proof.
  intros Hc Ha. pose proof (cell_range nx ny nz c Hx Hy Hc) as K. unfold b, base. rewrite axis_twice. destruct (cell_of nx ny c) as [[i j] k]. destruct K as (K0 & K1 & K2).
  assert (a = 0 \/ a = 1 \/ a = 2) as [->|[->| ->]] by lia; cbn [axis n]; eexists; (split; [reflexivity|]); lia.
Qed.
Lemma base_exists p : (forall a, 0 <= a < 3 -> exists i, axis a p = 2 * i /\ 0 <= i < n a) -> exists c, 0 <= c < nc /\ b c = p.
Proof.
  intros H. destruct (H 0 ltac:(lia)) as (i & Ei & Bi). destruct (H 1 ltac:(lia)) as (j & Ej & Bj). destruct (H 2 ltac:(lia)) as (k & Ek & Bk). cbn [n] in *.
  exists (cell_number nx ny (i, j, k)). split; [apply number_range; assumption|]. unfold b, base. rewrite cell_of_number by assumption. apply point_axes. intros a Ha. rewrite axis_twice.
  assert (a = 0 \/ a = 1 \/ a = 2) as [->|[->| ->]] by lia; cbn [axis]; [rewrite <- Ei | rewrite <- Ej | rewrite <- Ek]; destruct p as [[? ?] ?]; reflexivity.
Qed.

Lemma in_sides r w pts : In (r, w, pts) (sides_table f dim pieces) -> exists offs, zget pieces r = Ok offs /\ 0 <= w < ns /\ pts = side_points f dim offs w.
Proof.
  unfold sides_table. intros H. apply in_flat_map in H as ([r' offs] & I & J). apply in_map_iff in J as (w' & E & Hw). injection E as -> -> <-. apply in_zrange in Hw. exists offs. split; [|split; [exact Hw | reflexivity]].
  apply In_nth_error in I as (k & Ek). assert (nth_error (zrange (zlen pieces)) k = Some r /\ nth_error pieces k = Some offs) as [E1 E2].
  { clear - Ek. revert Ek. generalize (zrange (zlen pieces)) as l. revert k. induction pieces as [|q qs IH]; intros [|k] [|z l] E; cbn in E; try discriminate; cbn; [injection E as -> ->; auto | apply IH, E]. }
  assert (k < length pieces)%nat as L by (apply nth_error_Some; congruence). rewrite zrange_nth in E1 by (unfold zlen; lia). injection E1 as <-. apply zget_ok. rewrite Nat2Z.id. split; [lia | exact E2].
Qed.

(** every entry of the table belongs to an element of every cell *)
Lemma side_here r w pts c : In (r, w, pts) (sides_table f dim pieces) -> 0 <= c < nc -> exists row, sided (c * np + r) w row /\ map place row = map (plus (b c)) pts.
Proof.
  intros H Hc. destruct (in_sides _ _ _ H) as (offs & Eo & Hw & ->). pose proof np_pos as Np. pose proof (zget_bounds _ _ _ Eo) as Br. fold np in Br.
  assert (0 <= c * np + r < nc * np) as Be by nia. pose proof (row_is_tuple deg ev2v (nc * np) (c * np + r) ltac:(pose proof deg_pos; lia) Hlen Be) as R.
  destruct (side_exists f dim (dim - 1) ev2v (c * np + r) w _ ltac:(lia) ltac:(lia) R Hw) as (row & S). exists row. split; [exact S|].
  destruct (sided_points _ _ _ S) as (pts & I & E). assert ((c * np + r) / np = c) as Ec by (rewrite Z.div_add_l by lia; rewrite Z.div_small by lia; lia). assert ((c * np + r) mod np = r) as Er by (rewrite Z.add_comm, Z.mod_add by lia; apply Z.mod_small; lia).
  rewrite Ec, Er in *. destruct (in_sides _ _ _ I) as (offs' & Eo' & _ & ->). assert (offs' = offs) by congruence. subst offs'. exact E.
Qed.

Lemma table_range r w pts : In (r, w, pts) (sides_table f dim pieces) -> forall p a, In p pts -> 0 <= a < 3 -> 0 <= axis a p <= 2.
Proof.
  intros I p a Hp Ha. unfold table_ok in Htable. rewrite forallb_forall in Htable. specialize (Htable _ I). cbn beta iota in Htable. unfold side_ok in Htable. rewrite !andb_true_iff in Htable. destruct Htable as [[_ HR] _].
  rewrite forallb_forall in HR. specialize (HR p Hp). rewrite forallb_forall in HR. specialize (HR a (proj2 (in_zrange _ _) Ha)). lia.
Qed.
Lemma in_moved d r w pts : In d (deltas dim) -> In (r, w, pts) (sides_table f dim pieces) -> In (d, (r, w, map (plus d) pts)) (moved f dim pieces).
Proof. intros Hd Hs. unfold moved. apply in_flat_map. exists d. split; [exact Hd|]. apply in_map_iff. exists (r, w, pts). auto. Qed.
Lemma moved_in d r w q : In (d, (r, w, q)) (moved f dim pieces) -> exists pts, In (r, w, pts) (sides_table f dim pieces) /\ q = map (plus d) pts.
Proof. unfold moved. intros H. apply in_flat_map in H as (d' & _ & J). apply in_map_iff in J as ([[r' w'] pts] & E & I). injection E as -> -> -> <-. exists pts. auto. Qed.

Lemma plus_assoc p q r : plus p (plus q r) = plus (plus p q) r.
Proof. apply point_axes. intros a _. rewrite !axis_plus. lia. Qed.
Lemma plus_zero p : plus (0, 0, 0) p = p.
Proof. apply point_axes. intros a _. rewrite axis_plus. destruct a as [|[?|?|]|?]; cbn [axis]; lia. Qed.

Context (hl2l : list Z).
Hypothesis Hhl : zlen hl2l = nc * np * ns.
Hypothesis HA : forall e w e' w' row row' s, sided e w row -> sided e' w' row' -> zget hl2l (e * ns + w) = Ok s -> zget hl2l (e' * ns + w') = Ok s -> forall v, In v row <-> In v row'.
Hypothesis HB : forall e w e' w' row row' s, sided e w row -> sided e' w' row' -> same_polygon row row' -> zget hl2l (e * ns + w) = Ok s -> zget hl2l (e' * ns + w') = Ok s.

Lemma use_sided u s : zget hl2l u = Ok s -> exists e w row, u = e * ns + w /\ sided e w row.
Proof.
  intros E. pose proof ns_pos as Np. pose proof (zget_bounds _ _ _ E) as B. rewrite Hhl in B. exists (u / ns), (u mod ns). pose proof (Z.mod_pos_bound u ns Np) as Bm.
  assert (0 <= u / ns < nc * np) as Be by (split; [apply Z.div_pos; lia | apply Z.div_lt_upper_bound; [lia|]; rewrite Z.mul_comm; lia]).
  pose proof (row_is_tuple deg ev2v (nc * np) (u / ns) ltac:(pose proof deg_pos; lia) Hlen Be) as R. destruct (side_exists f dim (dim - 1) ev2v (u / ns) (u mod ns) _ ltac:(lia) ltac:(lia) R Bm) as (row & S).
  exists row. split; [rewrite Z.mul_comm; apply Z.div_mod; lia | exact S].
Qed.

Lemma set_map_plus d l m : (forall p, In p (map (plus d) l) <-> In p (map (plus d) m)) -> forall p, In p l <-> In p m.
Proof.
  intros H p. specialize (H (plus d p)). rewrite !in_map_iff in H. split; intros I.
  - destruct (proj1 H) as (q & E & J); [exists p; auto|]. apply plus_inj in E. subst. exact J.
  - destruct (proj2 H) as (q & E & J); [exists p; auto|]. apply plus_inj in E. subst. exact J.
Qed.

Theorem side_uses e0 w0 row0 s : sided e0 w0 row0 -> zget hl2l (e0 * ns + w0) = Ok s ->
  (on_surface dim n (map place row0) /\ zlen (uses_of hl2l s) = 1) \/ (~ on_surface dim n (map place row0) /\ zlen (uses_of hl2l s) = 2).
Proof.
  intros S0 E0. pose proof np_pos as Np. pose proof ns_pos as Ns. pose proof (sided_range _ _ _ S0) as [Be0 Bw0]. pose proof (sided_cell _ Be0) as [Bc0 Br0].
  destruct (sided_points _ _ _ S0) as (pts0 & I0 & P0). set (c0 := e0 / np) in *. set (r0 := e0 mod np) in *.
  assert (side_ok dim (moved f dim pieces) pts0 = true) as OK.
  { unfold table_ok in Htable. rewrite forallb_forall in Htable. apply (Htable _ I0). }
  set (x0 := ((0, 0, 0) : point, (r0, w0, map (plus (0, 0, 0)) pts0))).
  assert (map (plus (0, 0, 0)) pts0 = pts0) as M0 by (rewrite <- (map_id pts0) at 2; apply map_ext, plus_zero).
  destruct (side_ok_spec _ _ _ OK x0) as (x1 & A1 & K1 & S1 & Pol1 & U1 & D1 & F1 & R1 & (p1 & Ip1)).
  { apply in_moved; [|exact I0]. apply in_deltas; [lia|]. intros a Ha. left. destruct a as [|[?|?|]|?]; reflexivity. }
  { cbn [snd x0]. rewrite M0. reflexivity. }
  { reflexivity. }
  destruct x1 as [d1 [[r1 w1] q1]]. cbn [fst snd] in *. destruct (moved_in _ _ _ _ A1) as (pts1 & I1 & ->).
  (* the uses *)
  assert (forall u, zget hl2l u = Ok s -> u = e0 * ns + w0 \/ exists c, 0 <= c < nc /\ b c = plus (b c0) d1 /\ u = (c * np + r1) * ns + w1) as HU.
  { intros u Eu. destruct (use_sided u s Eu) as (e & w & row & -> & Sd). pose proof (sided_range _ _ _ Sd) as [Be Bw]. pose proof (sided_cell _ Be) as [Bc Br].
    destruct (sided_points _ _ _ Sd) as (pts & I & P). set (c := e / np) in *. set (r := e mod np) in *. assert (e = c * np + r) as Ee by (unfold c, r; rewrite Z.mul_comm; apply Z.div_mod; lia).
    set (d := minus (b c) (b c0)). assert (forall q, plus (b c) q = plus (b c0) (plus d q)) as Bd by (intros q; rewrite plus_assoc; unfold d; rewrite plus_minus; reflexivity).
    assert (forall p, In p (map (plus d) pts) <-> In p pts0) as Sm.
    { apply (set_map_plus (b c0)). intros p. rewrite map_map. rewrite (map_ext (fun x => plus (b c0) (plus d x)) (plus (b c))) by (intros; symmetry; apply Bd). rewrite <- P, <- P0. rewrite !in_map_iff.
      pose proof (HA _ _ _ _ _ _ _ Sd S0 Eu E0) as HS. split; intros (v & Ev & Iv); exists v; (split; [exact Ev | apply HS; exact Iv]). }
    assert (In (d, (r, w, map (plus d) pts)) (moved f dim pieces)) as Im.
    { apply in_moved; [|exact I]. apply in_deltas; [lia|]. intros a Ha. unfold d. rewrite axis_minus. destruct (base_range c a Bc Ha) as (i & Ei & Bi). destruct (base_range c0 a Bc0 Ha) as (i0 & Ei0 & Bi0). rewrite Ei, Ei0.
      destruct (Z_lt_le_dec a dim) as [La|La].
      - assert (-2 <= 2 * i - 2 * i0 <= 2) as Bnd; [|lia].
        pose proof (proj2 (Sm p1) Ip1) as J. apply in_map_iff in J as (q & Eq & Iq). pose proof (table_range _ _ _ I q a Iq Ha) as Bq. pose proof (R1 p1 a Ip1 Ha) as Bp. rewrite <- Eq, axis_plus in Bp. unfold d in Bp. rewrite axis_minus in Bp. lia.
      - left. assert (n a = 1) as N1; [|lia]. assert (a = 0 \/ a = 1 \/ a = 2) as [->|[->| ->]] by lia; [lia | apply Uy; lia | apply Uz; lia]. }
    destruct (U1 _ Im Sm) as [Ek|Ek].
    - left. assert (d = (0, 0, 0) /\ r = r0 /\ w = w0) as (Ed & Er & Ew) by (split; [exact (f_equal (fun k => fst (fst k)) Ek) | split; [exact (f_equal (fun k => snd (fst k)) Ek) | exact (f_equal snd Ek)]]). clear Ek. assert (c = c0) as Ecc by (apply (cell_inj nx ny); try assumption; change (b c = b c0); rewrite <- (plus_minus (b c0) (b c)); fold d; rewrite Ed; apply point_axes; intros a _; rewrite axis_plus; destruct a as [|[?|?|]|?]; cbn [axis]; lia).
      rewrite Ee, Ecc, Er, Ew. assert (c0 * np + r0 = e0) as -> by (unfold c0, r0; rewrite Z.mul_comm; symmetry; apply Z.div_mod; lia). reflexivity.
    - right. assert (d = d1 /\ r = r1 /\ w = w1) as (Ed & Er & Ew) by (split; [exact (f_equal fst Ek) | split; [exact (f_equal (fun k => fst (fst (snd k))) Ek) | exact (f_equal (fun k => snd (fst (snd k))) Ek)]]). clear Ek. exists c. split; [exact Bc|]. split; [rewrite <- Ed; unfold d; symmetry; apply plus_minus | rewrite Ee, Er, Ew; reflexivity]. }
  (* inside or on the surface *)
  assert ((exists c1, 0 <= c1 < nc /\ b c1 = plus (b c0) d1) -> ~ on_surface dim n (map place row0)) as C1.
  { intros (c1 & Bc1 & Ec1) (a & Ha & HS). rewrite P0 in HS. destruct (base_range c0 a Bc0 ltac:(lia)) as (i0 & Ei0 & Bi0). destruct (base_range c1 a Bc1 ltac:(lia)) as (i1 & Ei1 & Bi1). rewrite Ec1, axis_plus, Ei0 in Ei1.
    pose proof (R1 p1 a Ip1 ltac:(lia)) as Rp.
    assert (forall k, axis a (along a k) = k) as Al by (intros k; unfold along; destruct a as [|[?|?|]|?]; reflexivity).
    destruct HS as [HS|HS].
    - pose proof (HS _ (in_map (plus (b c0)) _ _ Ip1)) as Q. rewrite axis_plus in Q.
      rewrite (proj1 (F1 a Ha)) in Ei1; [rewrite Al in Ei1; lia|]. intros p Ip. pose proof (HS _ (in_map (plus (b c0)) _ _ Ip)) as Q'. rewrite axis_plus in Q'. lia.
    - pose proof (HS _ (in_map (plus (b c0)) _ _ Ip1)) as Q. rewrite axis_plus in Q.
      rewrite (proj2 (F1 a Ha)) in Ei1; [rewrite Al in Ei1; lia|]. intros p Ip. pose proof (HS _ (in_map (plus (b c0)) _ _ Ip)) as Q'. rewrite axis_plus in Q'. lia. }
  assert (on_surface dim n (map place row0) \/ exists c1, 0 <= c1 < nc /\ b c1 = plus (b c0) d1) as C2.
  { destruct D1 as [->|(a & Ha & D1)].
    - right. exists c0. split; [exact Bc0|]. apply point_axes. intros a _. rewrite axis_plus. destruct a as [|[?|?|]|?]; cbn [axis]; lia.
    - destruct (base_range c0 a Bc0 ltac:(lia)) as (i0 & Ei0 & Bi0).
      assert (forall k, (k = -2 /\ 1 <= i0) \/ (k = 2 /\ i0 < n a - 1) -> d1 = along a k -> exists c1, 0 <= c1 < nc /\ b c1 = plus (b c0) d1) as Mv.
      { intros k Hk ->. destruct (base_exists (plus (b c0) (along a k))) as (c1 & Bc1 & Ec1); [|exists c1; auto]. intros a' Ha'. rewrite axis_plus. destruct (base_range c0 a' Bc0 Ha') as (i & Ei & Bi). rewrite Ei.
        destruct (Z.eq_dec a' a) as [->|Na].
        - assert (axis a (along a k) = k) as -> by (unfold along; destruct a as [|[?|?|]|?]; reflexivity). exists (i + k / 2). destruct Hk as [[-> Hk]|[-> Hk]]; cbn [Z.div]; change (-2 / 2) with (-1); change (2 / 2) with 1; lia.
        - assert (axis a' (along a k) = 0) as -> by (unfold along; assert (a = 0 \/ a = 1 \/ a = 2) as [->|[->| ->]] by lia; assert (a' = 0 \/ a' = 1 \/ a' = 2) as [->|[->| ->]] by lia; cbn [axis]; try reflexivity; contradiction).
          exists i. lia. }
      destruct D1 as [[E1 Fl]|[E1 Fl]].
      + destruct (Z.eq_dec i0 0) as [Z0|Z0]; [left | right; apply (Mv (-2)); [lia | exact E1]]. exists a. split; [exact Ha|]. left. intros p Ip. rewrite P0 in Ip. apply in_map_iff in Ip as (q & <- & Iq). rewrite axis_plus, (Fl q Iq). lia.
      + destruct (Z.eq_dec i0 (n a - 1)) as [Z0|Z0]; [left | right; apply (Mv 2); [lia | exact E1]]. exists a. split; [exact Ha|]. right. intros p Ip. rewrite P0 in Ip. apply in_map_iff in Ip as (q & <- & Iq). rewrite axis_plus, (Fl q Iq). lia. }
  assert (In (e0 * ns + w0) (uses_of hl2l s)) as Iu0 by (apply uses_of_in; exact E0).
  assert (NoDup (uses_of hl2l s)) as ND by (unfold uses_of; apply NoDup_filter, zrange_NoDup).
  destruct C2 as [Sf|(c1 & Bc1 & Ec1)].
  - left. split; [exact Sf|]. assert (incl (uses_of hl2l s) [e0 * ns + w0]) as I1'.
    { intros u Iu. apply uses_of_in in Iu. destruct (HU u Iu) as [->|(c & Bc & Ec & _)]; [left; reflexivity|]. exfalso. exact (C1 (ex_intro _ c (conj Bc Ec)) Sf). }
    assert (incl [e0 * ns + w0] (uses_of hl2l s)) as I2' by (intros u [<-|[]]; exact Iu0).
    apply NoDup_incl_length in I1'; [|exact ND]. apply NoDup_incl_length in I2'; [|constructor; [intros []|constructor]]. cbn in I1', I2'. unfold zlen. lia.
  - right. split; [apply C1; eauto|]. set (u1 := (c1 * np + r1) * ns + w1).
    assert (zget hl2l u1 = Ok s) as Eu1.
    { destruct (side_here _ _ _ c1 I1 Bc1) as (row1 & Sd1 & P1). apply (HB _ _ _ _ _ _ _ S0 Sd1); [|exact E0].
      apply (polygon_unmap place); [intros x y Ix Iy; apply Happart; [exact (sided_in _ _ _ _ S0 Ix) | exact (sided_in _ _ _ _ Sd1 Iy)]|]. rewrite P0, P1.
      rewrite (map_ext (plus (b c1)) (fun p => plus (b c0) (plus d1 p))) by (intros p; rewrite Ec1; exact (eq_sym (plus_assoc (b c0) d1 p))). rewrite <- (map_map (plus d1) (plus (b c0)) pts1). apply (polygon_map (plus (b c0))). exact Pol1. }
    assert (u1 <> e0 * ns + w0) as Nu.
    { intros E. unfold u1 in E. destruct (in_sides _ _ _ I1) as (offs1 & Eo1 & Bw1 & _). pose proof (zget_bounds _ _ _ Eo1) as Br1. fold np in Br1.
      destruct (split_unique ns _ _ _ _ Bw1 Bw0 E) as [Ee Ew]. assert (e0 = c0 * np + r0) as Ee0 by (unfold c0, r0; rewrite Z.mul_comm; apply Z.div_mod; lia). rewrite Ee0 in Ee. destruct (split_unique np _ _ _ _ Br1 Br0 Ee) as [Ecc Er].
      apply K1. cbn. subst c1 r1 w1. f_equal. f_equal. apply (plus_inj (b c0)). rewrite <- Ec1. apply point_axes. intros a _. rewrite axis_plus. destruct a as [|[?|?|]|?]; cbn [axis]; lia. }
    assert (incl (uses_of hl2l s) [e0 * ns + w0; u1]) as I1'.
    { intros u Iu. apply uses_of_in in Iu. destruct (HU u Iu) as [->|(c & Bc & Ec & ->)]; [left; reflexivity|]. right. left. unfold u1. assert (c = c1) as -> by (apply (cell_inj nx ny); try assumption; change (b c = b c1); congruence). reflexivity. }
    assert (incl [e0 * ns + w0; u1] (uses_of hl2l s)) as I2' by (intros u [<-|[<-|[]]]; [exact Iu0 | apply uses_of_in; exact Eu1]).
    apply NoDup_incl_length in I1'; [|exact ND]. apply NoDup_incl_length in I2'; [|constructor; [intros [E|[]]; congruence | constructor; [intros []|constructor]]]. cbn in I1', I2'. unfold zlen. lia.
Qed.
End grid.
