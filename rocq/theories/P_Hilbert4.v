(** Positions of cells, and sorting by them. *)
From Verif Require Import Prelude M_Array M_Sort M_Hilbert S_Hilbert S_Sort S_Map P_Array P_Map P_Sort P_Hilbert P_Hilbert2 P_Hilbert3.
Local Open Scope Z_scope.

Lemma clamp_cell_ok b x : 1 <= b <= 63 -> 0 <= x -> clamp_cell x b = Ok (Z.min x (2 ^ b - 1)).
Proof.
  intros Hb Hx. unfold clamp_cell, shl. replace ((0 <=? b) && (b <? 64)) with true by (symmetry; apply andb_true_iff; rewrite Z.leb_le, Z.ltb_lt; lia).
  rewrite Z.shiftl_mul_pow2, Z.mul_1_l by lia. pose proof (pow2_pos b ltac:(lia)). pose proof (pow2_lt b 64 ltac:(lia)). rewrite u64_small by lia. cbn [bind]. f_equal.
  destruct (Z.leb_spec (2 ^ b) x); [rewrite u64_small by lia; lia|lia].
Qed.
Lemma into_grid_words b n X : 0 <= b -> zlen X = n -> Forall (fun x => 0 <= x) X -> words b n (into_grid b X).
Proof.
  intros Hb L F. split; [unfold into_grid; rewrite zlen_map; exact L|]. apply Forall_forall. intros y Hy. apply in_map_iff in Hy as (x & <- & Hx). rewrite Forall_forall in F. specialize (F x Hx). pose proof (pow2_pos b Hb). lia.
Qed.
Lemma into_grid_id b n X : words b n X -> into_grid b X = X.
Proof. intros [_ F]. unfold into_grid. induction F as [|x X Hx F IH]; [reflexivity|]. cbn [map]. rewrite IH. f_equal. lia. Qed.

Lemma from_cell_unfold b n X : 1 <= n -> 1 <= b <= 63 -> zlen X = n -> Forall (fun x => 0 <= x) X ->
  exists Y D, axes_to_transpose (into_grid b X) b n = Ok Y /\ untranspose Y b n = Ok D /\ from_cell X b n = Ok D /\ words b n D.
Proof.
  intros Hn Hb L F. pose proof (into_grid_words b n X ltac:(lia) L F) as W. destruct (to_transpose_and_back b n _ Hn ltac:(lia) W) as (Y & E & WY & _). destruct (untranspose_ok b n Y Hn ltac:(lia) WY) as (D & ED & WD & _).
  exists Y, D. split; [exact E|]. split; [exact ED|]. split; [|exact WD]. unfold from_cell.
  assert (mapM (fun x => clamp_cell x b) X = Ok (into_grid b X)) as ->.
  { clear -Hb F. induction F as [|x X Hx F IH]; [reflexivity|]. cbn [mapM]. rewrite clamp_cell_ok by assumption. cbn [bind]. rewrite IH. reflexivity. }
  cbn [bind]. rewrite E. cbn [bind]. exact ED.
Qed.
Lemma from_cell_total b n X : 1 <= n -> 1 <= b <= 63 -> words b n X -> exists D, from_cell X b n = Ok D /\ words b n D.
Proof.
  intros Hn Hb [L F]. destruct (from_cell_unfold b n X Hn Hb L) as (Y & D & _ & _ & E & W); [|exists D; split; assumption].
  eapply Forall_impl; [|exact F]. cbn. intros; lia.
Qed.
Lemma from_cell_clamps b n X : 1 <= n -> 1 <= b <= 63 -> zlen X = n -> Forall (fun x => 0 <= x) X -> from_cell X b n = from_cell (into_grid b X) b n.
Proof.
  intros Hn Hb L F. pose proof (into_grid_words b n X ltac:(lia) L F) as W. destruct (from_cell_unfold b n X Hn Hb L F) as (Y & D & E1 & E2 & E & _). rewrite E.
  destruct (from_cell_unfold b n (into_grid b X) Hn Hb) as (Y' & D' & E1' & E2' & E' & _); [apply W|eapply Forall_impl; [|apply W]; cbn; intros; lia|].
  rewrite (into_grid_id b n _ W) in E1'. rewrite E1 in E1'. injection E1' as <-. rewrite E2 in E2'. injection E2' as <-. symmetry. exact E'.
Qed.
Lemma nonneg_words b n X : words b n X -> Forall (fun x => 0 <= x) X.
Proof. intros [_ F]. eapply Forall_impl; [|exact F]. cbn. intros; lia. Qed.
Lemma from_cell_reps b n X D : 1 <= n -> 1 <= b <= 63 -> words b n X -> from_cell X b n = Ok D -> words b n D /\ reps n X (cellat n (Z.to_nat b) (position b D)).
Proof.
  intros Hn Hb W E. destruct (from_cell_unfold b n X Hn Hb (proj1 W) (nonneg_words b n X W)) as (Y & D' & E1 & E2 & E' & WD). rewrite E in E'. injection E' as <-. split; [exact WD|].
  rewrite (into_grid_id b n X W) in E1. apply (cell_of_position b n X Y D Hn ltac:(lia) W E1 E2).
Qed.
Lemma from_cell_injective b n X X' D : 1 <= n -> 1 <= b <= 63 -> words b n X -> words b n X' -> from_cell X b n = Ok D -> from_cell X' b n = Ok D -> X = X'.
Proof.
  intros Hn Hb W W' E E'. destruct (from_cell_reps b n X D Hn Hb W E) as (_ & R). destruct (from_cell_reps b n X' D Hn Hb W' E') as (_ & R'). eapply reps_fun; eassumption.
Qed.
Lemma from_cell_surjective b n h : 1 <= n -> 1 <= b <= 63 -> 0 <= h < 2 ^ (b * n) -> exists X D, words b n X /\ from_cell X b n = Ok D /\ words b n D /\ position b D = h.
Proof.
  intros Hn Hb Hh. destruct (position_surj b n ltac:(lia) ltac:(lia) h Hh) as (D & WD & P). destruct (untranspose_onto b n D Hn ltac:(lia) WD) as (Y & WY & EY). destruct (to_axes_and_back b n Y Hn ltac:(lia) WY) as (X & _ & WX & EX).
  exists X, D. split; [exact WX|]. split; [|split; assumption]. destruct (from_cell_unfold b n X Hn Hb (proj1 WX) (nonneg_words b n X WX)) as (Y' & D' & E1 & E2 & E & _). rewrite (into_grid_id b n X WX) in E1. congruence.
Qed.
Lemma from_cell_steps b n X X' D D' : 1 <= n -> 1 <= b <= 63 -> words b n X -> words b n X' -> from_cell X b n = Ok D -> from_cell X' b n = Ok D' ->
  position b D' = position b D + 1 -> neighbours X X'.
Proof.
  intros Hn Hb W W' E E' P. destruct (from_cell_reps b n X D Hn Hb W E) as ([LD FD] & R). destruct (from_cell_reps b n X' D' Hn Hb W' E') as ([LD' FD'] & R'). rewrite P in R'.
  eapply fadj_neighbours; [exact R|exact R'|]. pose proof (position_range b D ltac:(lia) FD). pose proof (position_range b D' ltac:(lia) FD') as Q. rewrite LD', P in Q. apply cellat_adj; [exact Hn|lia|]. rewrite Z2Nat.id by lia. lia.
Qed.
Lemma from_cell_first b n D : 1 <= n -> 1 <= b <= 63 -> from_cell (repeat 0 (Z.to_nat n)) b n = Ok D -> position b D = 0.
Proof.
  intros Hn Hb E. pose proof (pow2_pos (b * n) ltac:(nia)). destruct (from_cell_surjective b n 0 Hn Hb ltac:(lia)) as (X & D0 & W & E0 & _ & P). destruct (from_cell_reps b n X D0 Hn Hb W E0) as (_ & R). rewrite P in R.
  assert (X = repeat 0 (Z.to_nat n)) as ->.
  { eapply reps_fun; [exact R|]. split; [rewrite zlen_repeat; lia|]. intros i Hi. rewrite zget_repeat by lia. f_equal. symmetry. apply (cellat_first n (Z.to_nat b) Hn i Hi). }
  congruence.
Qed.

(** * order *)
Lemma position_acc b D : forall a, fold_left (fun h d => h * 2 ^ b + d) D a = a * 2 ^ (b * zlen D) + position b D.
Proof.
  induction D as [|d D IH] using rev_ind; intros a; [change (zlen (@nil Z)) with 0; rewrite Z.mul_0_r; unfold position; cbn [fold_left]; lia|].
  rewrite fold_left_app, position_snoc. cbn [fold_left]. rewrite IH, zlen_snoc. destruct (Z.lt_ge_cases b 0) as [Hb|Hb].
  - destruct D as [|d' D]; [change (zlen (@nil Z)) with 0; rewrite Z.mul_0_r; replace (b * (0 + 1)) with b by lia; change (position b []) with 0; rewrite Z.pow_0_r; lia|].
    rewrite (Z.pow_neg_r 2 b) by lia. rewrite (Z.pow_neg_r 2 (b * (zlen (d' :: D) + 1))) by (pose proof (zlen_nonneg D); rewrite zlen_cons; nia). lia.
  - pose proof (zlen_nonneg D). replace (b * (zlen D + 1)) with (b * zlen D + b) by lia. rewrite (Z.pow_add_r 2 (b * zlen D) b) by nia. lia.
Qed.
Lemma position_cons b d D : position b (d :: D) = d * 2 ^ (b * zlen D) + position b D.
Proof. unfold position at 1. cbn [fold_left]. rewrite position_acc. lia. Qed.
Lemma position_lex b : 0 <= b -> forall D D', length D = length D' -> Forall (fun x => 0 <= x < 2 ^ b) D -> Forall (fun x => 0 <= x < 2 ^ b) D' -> (lex_lt D D' <-> position b D < position b D').
Proof.
  intros Hb. induction D as [|d D IH]; intros [|d' D'] L F F'; try discriminate; [cbn; unfold position; cbn; lia|]. injection L as L. inversion F as [|? ? Hd FD]; subst. inversion F' as [|? ? Hd' FD']; subst. specialize (IH D' L FD FD').
  rewrite !position_cons. pose proof (position_range b D Hb FD) as P. pose proof (position_range b D' Hb FD') as P'. assert (zlen D = zlen D') as LE by (unfold zlen; lia). rewrite <- LE in *. cbn [lex_lt].
  set (B := 2 ^ (b * zlen D)) in *. rewrite IH. split; [intros [Hlt|[-> Hlt]]; nia|]. intros H. destruct (Z.lt_trichotomy d d') as [|[->|]]; [left; assumption|right; split; [reflexivity|lia]|exfalso; nia].
Qed.

Lemma tuple_concat (rows : list (list Z)) w i row : 0 <= w -> Forall (fun r => zlen r = w) rows -> zget rows i = Ok row -> tuple (concat rows) w i = row.
Proof.
  intros Hw F E. apply zget_ok in E as [Hi E]. unfold tuple. rewrite Z2Nat.inj_mul by lia. revert rows F E. induction (Z.to_nat i) as [|k IH]; intros [|r rows] F E; try discriminate; inversion F as [|? ? Hr FR]; subst.
  - cbn in E. injection E as ->. cbn [Nat.mul skipn concat]. unfold zlen. rewrite Nat2Z.id, firstn_app, Nat.sub_diag, firstn_all. cbn [firstn]. apply app_nil_r.
  - cbn [nth_error] in E. cbn [concat]. etransitivity; [|exact (IH rows FR E)]. f_equal. unfold zlen. rewrite Nat2Z.id. cbn [Nat.mul]. rewrite skipn_app, skipn_all2 by lia. cbn [app]. f_equal. lia.
Qed.

Lemma sort_cells_sorts cells dim : 1 <= dim <= 3 -> Forall (fun X => zlen X = dim /\ Forall (fun x => 0 <= x) X) cells ->
  exists hs p, mapM (fun X => D <- from_cell X 52 dim ;; Ok (position 52 D)) cells = Ok hs /\ sort_cells cells dim = Ok p /\
  zlen p = zlen cells /\ is_perm p /\ StronglySorted (visited_before hs) p.
Proof.
  intros Hd F. unfold sort_cells. replace ((dim =? 3) || (dim =? 2) || (dim =? 1)) with true by (symmetry; destruct (Z.eqb_spec dim 3), (Z.eqb_spec dim 2), (Z.eqb_spec dim 1); try reflexivity; lia).
  unfold dists_from_cells.
  assert (exists rows, Forall2 (fun X D => from_cell X 52 dim = Ok D) cells rows /\ Forall (words 52 dim) rows) as (rows & F2 & WR).
  { induction F as [|X cells [L H] F IH]; [exists []; split; constructor|]. destruct IH as (rows & A & B). destruct (from_cell_unfold 52 dim X ltac:(lia) ltac:(lia) L H) as (_ & D & _ & _ & E & W). exists (D :: rows). split; constructor; assumption. }
  assert (mapM (fun X => D <- from_cell X mantissa_bits dim ;; mapM (fun c => let sv := if 2 ^ 63 <=? c then c - 2 ^ 64 else c in _ <- check (0 <=? sv) ;; Ok sv) D) cells = Ok rows) as ED.
  { apply mapM_ok. clear F. induction F2 as [|X D cells rows E F2 IH]; [constructor|]. inversion WR as [|? ? W WR']; subst. constructor; [|apply IH, WR']. change mantissa_bits with 52. rewrite E. cbn [bind].
    apply mapM_ok. destruct W as [_ W]. clear -W. induction W as [|d D Hd W IH]; constructor; [|exact IH]. cbv zeta. assert (2 ^ 52 < 2 ^ 63) as Hp by reflexivity. set (a := 2 ^ 63) in *. destruct (Z.leb_spec a d); [lia|]. replace (0 <=? d) with true by (symmetry; apply Z.leb_le; lia). reflexivity. }
  cbv zeta in ED. rewrite ED. cbn [bind].
  assert (Forall (fun r => zlen r = dim) rows) as LR by (eapply Forall_impl; [|exact WR]; intros r [L _]; exact L).
  assert (zlen (concat rows) = zlen cells * dim) as LC.
  { pose proof (Forall2_len _ _ _ F2) as L2. assert (zlen cells = zlen rows) as -> by (unfold zlen; lia). clear -LR. induction LR as [|r rows Hr LR IH]; [reflexivity|]. cbn [concat]. rewrite zlen_app, zlen_cons, IH, Hr. lia. }
  destruct (sort_by_keys_spec (concat rows) dim (zlen cells) ltac:(lia) LC) as (p & E & Lp & Pp & S). exists (map (position 52) rows), p.
  split; [|split; [exact E|split; [exact Lp|split; [exact Pp|]]]].
  { apply mapM_ok. clear -F2. induction F2 as [|X D cells rows E F2 IH]; constructor; [rewrite E; reflexivity|exact IH]. }
  assert (forall a, In a p -> 0 <= a < zlen rows) as Bp.
  { intros a Ha. pose proof (Forall2_len _ _ _ F2) as L2. assert (zlen rows = zlen p) as -> by (unfold zlen in *; lia). apply in_zrange. unfold is_perm in Pp. eapply Permutation_in; [exact Pp|exact Ha]. }
  clear -S Bp WR LR Hd. induction S as [|a p S IH Fa]; constructor; [apply IH; intros; apply Bp; right; assumption|]. apply Forall_forall. intros c Hc. rewrite Forall_forall in Fa. specialize (Fa c Hc).
  destruct (zget_in_range rows a (Bp a (or_introl eq_refl))) as (ra & Ea). destruct (zget_in_range rows c (Bp c (or_intror Hc))) as (rc & Ec).
  exists (position 52 ra), (position 52 rc). rewrite !zget_map, Ea, Ec. cbn [bind]. split; [reflexivity|]. split; [reflexivity|].
  unfold stably_before in Fa. rewrite (tuple_concat rows dim a ra ltac:(lia) LR Ea), (tuple_concat rows dim c rc ltac:(lia) LR Ec) in Fa.
  rewrite Forall_forall in WR. destruct (WR ra (zget_In _ _ _ Ea)) as [La Wa]. destruct (WR rc (zget_In _ _ _ Ec)) as [Lc Wc]. unfold zlen in La, Lc.
  destruct Fa as [Fa|[-> Fa]]; [left; apply (position_lex 52 ltac:(lia)); [lia|assumption..]|right; split; [reflexivity|exact Fa]].
Qed.
