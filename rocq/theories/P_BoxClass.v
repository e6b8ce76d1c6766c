(** Proofs about the classification of box meshes. *)
From Coq Require Import String QArith.
From Verif Require Import Prelude S_Sort M_Sort S_Scan P_Scan M_Template S_Template M_Align S_Align P_Align S_Unique P_Unique M_Adj S_Adj P_Graph S_Match P_Match P_Transit M_ArrayOps S_ArrayOps M_MeshAdj S_MeshAdj P_MeshAdj P_MeshAdj2 P_MeshAdj3
  M_Build S_Build P_Build M_Simplify S_Simplify P_Simplify M_Box S_Box P_Grid P_Fill P_Box P_Box4 M_BoxClass S_BoxClass.
Local Open Scope Z_scope.

Lemma Forall2_zlen {A B} (R : A -> B -> Prop) l m : Forall2 R l m -> zlen l = zlen m.
Proof. induction 1 as [|x y l m _ _ IH]; [reflexivity|]. rewrite !zlen_cons, IH. reflexivity. Qed.

(** ** Comparisons *)
Lemma above_spec q r b : (Qlt r q <-> b = true) -> above q r = b.
Proof.
  intros H. unfold above. destruct (Qle_bool q r) eqn:E.
  - apply Qle_bool_iff in E. destruct b; [|reflexivity]. exfalso. apply (Qlt_not_le _ _ (proj2 H eq_refl) E).
  - cbn. symmetry. apply H. apply Qnot_le_lt. intros K. apply Qle_bool_iff in K. congruence.
Qed.
Lemma dist_value n : 0 < n -> (inject_Z (2 * n) / inject_Z (n * 32) == 1 # 16)%Q.
Proof.
  intros Hn. rewrite !inject_Z_mult. field. intros K. unfold Qeq in K. cbn in K. lia.
Qed.
Lemma lt_mean r S k : 0 < k -> (r < inject_Z S / inject_Z k <-> r * inject_Z k < inject_Z S)%Q.
Proof.
  intros Hk. assert (0 < inject_Z k)%Q as Kp by (unfold Qlt; cbn; lia). split; intros H.
  - apply (Qmult_lt_r _ _ (inject_Z k) Kp) in H. setoid_replace (inject_Z S / inject_Z k * inject_Z k)%Q with (inject_Z S) in H; [exact H|]. field. intros E. rewrite E in Kp. discriminate.
  - apply (Qmult_lt_r _ _ (inject_Z k) Kp). setoid_replace (inject_Z S / inject_Z k * inject_Z k)%Q with (inject_Z S); [exact H|]. field. intros E. rewrite E in Kp. discriminate.
Qed.
Lemma above_upper q S k n : 0 < k -> 0 < n -> (q == inject_Z S / inject_Z k)%Q -> above q (inject_Z (2 * n) - inject_Z (2 * n) / inject_Z (n * 32))%Q = (k * (32 * n - 1) <? 16 * S).
Proof.
  intros Hk Hn E. apply above_spec. rewrite E, (dist_value n Hn), (lt_mean _ _ _ Hk), Z.ltb_lt. unfold Qlt, Qmult, Qminus, Qplus, Qopp, inject_Z. cbn [Qnum Qden]. rewrite ?Pos.mul_1_l, ?Pos.mul_1_r. split; lia.
Qed.
Lemma above_lower q S k n : 0 < k -> 0 < n -> (q == inject_Z S / inject_Z k)%Q -> above q (inject_Z (2 * n) / inject_Z (n * 32))%Q = (k <? 16 * S).
Proof.
  intros Hk Hn E. apply above_spec. rewrite E, (dist_value n Hn), (lt_mean _ _ _ Hk), Z.ltb_lt. unfold Qlt, Qmult, inject_Z. cbn [Qnum Qden]. rewrite ?Pos.mul_1_l, ?Pos.mul_1_r. split; lia.
Qed.

(** ** One axis *)
Definition digit_of (n k S : Z) : Z := if k * (32 * n - 1) <? 16 * S then 2 else if k <? 16 * S then 1 else 0.
Lemma zsum_range n xs : (forall x, In x xs -> 0 <= x <= 2 * n) -> 0 <= zsum xs <= zlen xs * (2 * n) /\
  ((forall x, In x xs -> x = 0) \/ ((exists x, In x xs /\ x <> 0) /\ 1 <= zsum xs)) /\
  ((forall x, In x xs -> x = 2 * n) \/ ((exists x, In x xs /\ x <> 2 * n) /\ zsum xs <= zlen xs * (2 * n) - 1)).
Proof.
  induction xs as [|x xs IH]; intros H.
  - change (zsum []) with 0. change (zlen (@nil Z)) with 0. split; [lia|]. split; left; intros ? [].
  - assert (forall y, In y xs -> 0 <= y <= 2 * n) as H' by (intros y Hy; apply H; right; exact Hy). specialize (IH H') as (A & B & C). assert (0 <= x <= 2 * n) as Hx by (apply H; left; reflexivity).
    change (zsum (x :: xs)) with (x + zsum xs). rewrite zlen_cons. split; [lia|]. split.
    + destruct B as [B|((y & Hy & Ny) & B)].
      * destruct (Z.eq_dec x 0) as [->|Nx]; [left; intros y [<-|Hy]; auto|]. right. split; [exists x; split; [left; reflexivity|exact Nx]|lia].
      * right. split; [exists y; split; [right; exact Hy|exact Ny]|lia].
    + destruct C as [C|((y & Hy & Ny) & C)].
      * destruct (Z.eq_dec x (2 * n)) as [->|Nx]; [left; intros y [<-|Hy]; auto|]. right. split; [exists x; split; [left; reflexivity|exact Nx]|lia].
      * right. split; [exists y; split; [right; exact Hy|exact Ny]|lia].
Qed.
Lemma zsum_all k xs : (forall x, In x xs -> x = k) -> zsum xs = zlen xs * k.
Proof. induction xs as [|x xs IH]; intros H; [reflexivity|]. change (zsum (x :: xs)) with (x + zsum xs). rewrite zlen_cons, IH, (H x); [lia|left; reflexivity|intros y Hy; apply H; right; exact Hy]. Qed.
Lemma digit_stand n xs : 0 < n -> 1 <= zlen xs <= 8 -> (forall x, In x xs -> 0 <= x <= 2 * n) -> stand n xs (digit_of n (zlen xs) (zsum xs)).
Proof.
  intros Hn Hk H. destruct (zsum_range n xs H) as (A & B & C). unfold digit_of, stand. destruct (Z.ltb_spec (zlen xs * (32 * n - 1)) (16 * zsum xs)) as [U|U].
  - right. left. split; [reflexivity|]. destruct C as [C|(_ & C)]; [exact C|]. lia.
  - destruct (Z.ltb_spec (zlen xs) (16 * zsum xs)) as [L|L].
    + right. right. split; [reflexivity|]. split.
      * destruct B as [B|(B & _)]; [|exact B]. rewrite (zsum_all 0 xs B) in L. lia.
      * destruct C as [C|(C & _)]; [|exact C]. rewrite (zsum_all (2 * n) xs C) in U. lia.
    + left. split; [reflexivity|]. destruct B as [B|(_ & B)]; [exact B|]. lia.
Qed.
Lemma stand_unique n xs d d' : 0 < n -> 1 <= zlen xs -> stand n xs d -> stand n xs d' -> d = d'.
Proof.
  intros Hn Hl. destruct xs as [|x xs]; [change (zlen (@nil Z)) with 0 in Hl; lia|]. assert (In x (x :: xs)) as Hx by (left; reflexivity).
  intros [[-> A]|[[-> A]|(-> & (y & Hy & Ny) & (z & Hz & Nz))]] [[-> B]|[[-> B]|(-> & (y' & Hy' & Ny') & (z' & Hz' & Nz'))]]; try reflexivity; exfalso.
  - pose proof (A x Hx). pose proof (B x Hx). lia.
  - apply Ny'. apply A, Hy'.
  - pose proof (A x Hx). pose proof (B x Hx). lia.
  - apply Nz'. apply A, Hz'.
  - apply Ny. apply B, Hy.
  - apply Nz. apply B, Hz.
Qed.

(** ** One point *)
Lemma point_class dim (n : Z -> Z) (k : Z) (S : Z -> Z) x : 1 <= dim <= 3 -> 0 < k -> (forall a, 0 <= a < dim -> 0 < n a) -> (forall a, 0 <= a < dim -> exists q, zget x a = Ok q /\ (q == inject_Z (S a) / inject_Z k)%Q) ->
  class_of_point dim (fun j => inject_Z (2 * n j)) (fun j => (inject_Z (2 * n j) / inject_Z (n j * 32))%Q) x =
    Ok (zsum (map (fun a => digit_of (n a) k (S a) * 3 ^ a) (zrange dim)), zsum (map (fun a => if digit_of (n a) k (S a) =? 1 then 1 else 0) (zrange dim))).
Proof.
  intros Hd Hk Hn Hx.
  unfold class_of_point. match goal with |- foldM ?F _ _ = _ => set (G := F) end.
  assert (forall a st, 0 <= a < dim -> G st a = Ok (fst st * 3 + digit_of (n a) k (S a), snd st + (if digit_of (n a) k (S a) =? 1 then 1 else 0))) as step.
  { intros a [id cd] Ha. unfold G. destruct (Hx a Ha) as (q & -> & Eq). cbn [bind fst snd]. rewrite (above_upper q (S a) k (n a) Hk (Hn a Ha) Eq), (above_lower q (S a) k (n a) Hk (Hn a Ha) Eq). unfold digit_of.
    destruct (k * (32 * n a - 1) <? 16 * S a); [rewrite Z.add_0_r; reflexivity|]. destruct (k <? 16 * S a); [reflexivity|]. rewrite !Z.add_0_r. reflexivity. }
  clearbody G. assert (dim = 1 \/ dim = 2 \/ dim = 3) as [->|[->| ->]] by lia.
  - change (rev (zrange 1)) with [0]. change (zrange 1) with [0]. cbn [foldM map zsum fold_right]. rewrite step by lia. cbn [bind fst snd]. f_equal. change (3 ^ 0) with 1. f_equal; lia.
  - change (rev (zrange 2)) with [1; 0]. change (zrange 2) with [0; 1]. cbn [foldM map zsum fold_right]. rewrite step by lia. cbn [bind]. rewrite step by lia. cbn [bind fst snd]. f_equal. change (3 ^ 0) with 1. change (3 ^ 1) with 3. f_equal; lia.
  - change (rev (zrange 3)) with [2; 1; 0]. change (zrange 3) with [0; 1; 2]. cbn [foldM map zsum fold_right]. rewrite step by lia. cbn [bind]. rewrite step by lia. cbn [bind]. rewrite step by lia. cbn [bind fst snd]. f_equal.
    change (3 ^ 0) with 1. change (3 ^ 1) with 3. change (3 ^ 2) with 9. f_equal; lia.
Qed.
Lemma points_class dim (n : Z -> Z) (k : Z) (S : Z -> Z -> Z) npts (cs : list Q) : 1 <= dim <= 3 -> 0 < k -> 0 <= npts -> (forall a, 0 <= a < dim -> 0 < n a) -> zlen cs = npts * dim ->
  (forall e a, 0 <= e < npts -> 0 <= a < dim -> exists q, zget cs (e * dim + a) = Ok q /\ (q == inject_Z (S e a) / inject_Z k)%Q) ->
  classify_box_dim dim n cs =
    Ok (map (fun e => zsum (map (fun a => digit_of (n a) k (S e a) * 3 ^ a) (zrange dim))) (zrange npts),
        map (fun e => zsum (map (fun a => if digit_of (n a) k (S e a) =? 1 then 1 else 0) (zrange dim))) (zrange npts)).
Proof.
  intros Hd Hk Hp Hn HL HS. unfold classify_box_dim. rewrite HL, Z.rem_mul, Z.quot_mul by lia. cbn [Z.eqb check bind].
  rewrite (proj2 (tabulate_ok npts _ (map (fun e => (zsum (map (fun a => digit_of (n a) k (S e a) * 3 ^ a) (zrange dim)), zsum (map (fun a => if digit_of (n a) k (S e a) =? 1 then 1 else 0) (zrange dim)))) (zrange npts)) Hp)).
  - cbn [bind]. rewrite !map_map. reflexivity.
  - split; [rewrite zlen_map, zlen_zrange; lia|]. intros e He. rewrite zget_map, zget_zrange by exact He. cbn [bind]. eexists. split; [|reflexivity].
    assert (exists x, mapM (fun j => zget cs (e * dim + j)) (zrange dim) = Ok x) as (x & Ex).
    { apply mapM_total. intros a Ha. apply in_zrange in Ha. destruct (HS e a He Ha) as (q & -> & _). exists q. reflexivity. }
    rewrite Ex. cbn [bind]. apply point_class; try assumption. intros a Ha. destruct (HS e a He Ha) as (q & E1 & E2). exists q. split; [|exact E2].
    destruct (mapM_nth _ _ _ (Z.to_nat a) a Ex) as (y & E3 & E4); [rewrite zrange_nth by lia; f_equal; lia|]. assert (y = q) as -> by congruence. apply zget_ok. split; [lia|exact E4].
Qed.

(** ** One dimension *)
Lemma exact_average_ok T c m d dim coords place : valid_topology T -> ready T m -> t_dim T = dim -> 1 <= d <= dim -> places dim (t_nents T 0) coords place ->
  let deg := element_degree (t_family T) d 0 in let S := fun e a => zsum (map (fun v => axis a (place v)) (tuple (t_verts T d) deg e)) in
  exists m', exact_average_field c m d dim coords = Ok (Some (m', flat_map (fun e => map (fun j => (inject_Z (S e j) / inject_Z deg)%Q) (zrange dim)) (zrange (t_nents T d)))) /\ ready T m'.
Proof.
  intros V R D Hd [HL HP] deg S. pose proof (v_dim T V) as HD. unfold exact_average_field. rewrite HL, Z.rem_mul by lia. cbn [Z.eqb check bind].
  destruct (down_answer T c m d 0 V R ltac:(lia) ltac:(lia)) as (m' & a & E & R' & M). unfold bindo at 1. rewrite E. cbn [bind fst snd]. exists m'. split; [|exact R'].
  unfold means_down in M. cbn [Z.eqb] in M. subst a. cbn [adj_ab2b]. rewrite (i_family T m (proj1 R)). rewrite (ready_nents T m d R) by lia. fold deg.
  assert (0 < deg) as Hdeg by (apply degree_pos; lia). destruct (v_verts T V d ltac:(lia)) as (VL & _ & VB). fold deg in VL. pose proof (v_nents T V d ltac:(lia)) as VN.
  rewrite (proj2 (tabulate_ok (t_nents T d) _ (map (fun e => map (fun j => (inject_Z (S e j) / inject_Z deg)%Q) (zrange dim)) (zrange (t_nents T d))) VN)).
  - cbn [bind]. rewrite flat_map_concat_map. reflexivity.
  - split; [rewrite zlen_map, zlen_zrange; lia|]. intros e He. rewrite zget_map, zget_zrange by exact He. cbn [bind]. eexists. split; [|reflexivity].
    pose proof (row_is_tuple deg (t_verts T d) (t_nents T d) e ltac:(lia) VL He) as HR. unfold S. set (row := tuple (t_verts T d) deg e) in *. clearbody row.
    apply mapM_map_ok. intros j Hj. apply in_zrange in Hj. rewrite (foldM_sum (fun k => zget (t_verts T d) (e * deg + k)) (fun v => zget coords (v * dim + j)) (fun k => axis j (place (nth (Z.to_nat k) row 0)))).
    + cbn [bind]. replace (map (fun k => axis j (place (nth (Z.to_nat k) row 0))) (zrange deg)) with (map (fun v => axis j (place v)) row); [reflexivity|].
      rewrite <- (nth_row row deg (proj1 HR)) at 1. rewrite map_map. reflexivity.
    + intros k Hk. apply in_zrange in Hk. destruct (proj2 HR k Hk) as (v & E1 & E2). exists v. split; [exact E1|]. apply zget_ok in E2 as [_ E2]. rewrite (nth_error_nth _ _ 0 E2).
      apply HP; [|lia]. apply VB. eapply zget_In, E1.
Qed.

Definition tags_right (n : Z -> Z) (T : topology) (place : Z -> point) (d : Z) (tags : list Z * list Z) : Prop :=
  zlen (fst tags) = t_nents T d /\ zlen (snd tags) = t_nents T d /\
  forall e row, entity_row T d e row -> exists id class_dim, zget (fst tags) e = Ok id /\ zget (snd tags) e = Ok class_dim /\ on_part (t_dim T) n (map place row) id class_dim.

Lemma tags_from_sums n T place d k S : 0 < k <= 8 -> valid_topology T -> 0 <= d <= t_dim T -> (forall a, 0 <= a < t_dim T -> 0 < n a) ->
  (forall e row, entity_row T d e row -> zlen row = k /\ (forall v, In v row -> 0 <= v < t_nents T 0) /\ forall a, 0 <= a < t_dim T -> S e a = zsum (map (fun v => axis a (place v)) row)) ->
  (forall v a, 0 <= v < t_nents T 0 -> 0 <= a < t_dim T -> 0 <= axis a (place v) <= 2 * n a) ->
  tags_right n T place d (map (fun e => zsum (map (fun a => digit_of (n a) k (S e a) * 3 ^ a) (zrange (t_dim T)))) (zrange (t_nents T d)),
        map (fun e => zsum (map (fun a => if digit_of (n a) k (S e a) =? 1 then 1 else 0) (zrange (t_dim T)))) (zrange (t_nents T d))).
Proof.
  intros Hk V Hd Hn HR HI. pose proof (v_nents T V d Hd) as VN. unfold tags_right. cbn [fst snd]. rewrite !zlen_map, zlen_zrange by lia. split; [reflexivity|]. split; [reflexivity|].
  intros e row H. rewrite !zget_map, !zget_zrange by apply H. cbn [bind]. eexists _, _. split; [reflexivity|]. split; [reflexivity|]. exists (fun a => digit_of (n a) k (S e a)). split; [|split; reflexivity].
  intros a Ha. destruct (HR e row H) as (L & B & ES). rewrite (ES a Ha), map_map. replace k with (zlen (map (fun v => axis a (place v)) row)) by (rewrite zlen_map; exact L). apply digit_stand; [apply Hn, Ha|rewrite zlen_map; lia|].
  intros x Hx. apply in_map_iff in Hx as (v & <- & Hv). apply HI; [apply B, Hv|exact Ha].
Qed.

Section mesh.
Context (n : Z -> Z) (T : topology) (coords : list Z) (place : Z -> point).
Hypothesis V : valid_topology T.
Hypothesis Hn : forall a, 0 <= a < t_dim T -> 0 < n a.
Hypothesis HP : places (t_dim T) (t_nents T 0) coords place.
Hypothesis HI : forall v a, 0 <= v < t_nents T 0 -> 0 <= a < t_dim T -> 0 <= axis a (place v) <= 2 * n a.
Lemma dim_classified c m d : ready T m -> 0 <= d <= t_dim T -> exists cs m' tags,
  (if negb (d =? 0) then exact_average_field c m d (t_dim T) coords else Ok (Some (m, map inject_Z coords))) = Ok (Some (m', cs)) /\ ready T m' /\
  classify_box_dim (t_dim T) n cs = Ok tags /\ tags_right n T place d tags.
Proof.
  intros R Hd. pose proof (v_dim T V) as HD. pose proof (v_nents T V d Hd) as VN. destruct (Z.eqb_spec d 0) as [->|Nd]; cbn [negb].
  - destruct HP as [HL HG]. eexists _, m, _. split; [reflexivity|]. split; [exact R|]. split.
    + apply (points_class (t_dim T) n 1 (fun v a => axis a (place v)) (t_nents T 0)); try assumption; try lia; [rewrite zlen_map; exact HL|].
      intros v a Hv Ha. exists (inject_Z (axis a (place v))). rewrite zget_map, (proj1 (HG v a Hv) Ha). split; [reflexivity|]. field.
    + apply tags_from_sums; try assumption; try lia. intros e row [He Hr]. cbn [Z.eqb] in Hr. subst row. split; [reflexivity|]. split; [intros v [<-|[]]; exact He|]. intros a _. cbn [map zsum fold_right]. lia.
  - destruct (exact_average_ok T c m d (t_dim T) coords place V R eq_refl ltac:(lia) HP) as (m' & E & R'). cbv zeta in E. eexists _, m', _. split; [exact E|]. split; [exact R'|].
    set (deg := element_degree (t_family T) d 0) in *. assert (0 < deg) as Hdeg by (apply degree_pos; lia). set (S := fun e a => zsum (map (fun v => axis a (place v)) (tuple (t_verts T d) deg e))). split.
    + apply (points_class (t_dim T) n deg S (t_nents T d)); try assumption.
      * rewrite (rows_len _ (t_dim T)); [reflexivity|intros; rewrite zlen_map, zlen_zrange; lia|exact VN].
      * intros e a He Ha. exists (inject_Z (S e a) / inject_Z deg)%Q. split; [|reflexivity]. rewrite (rows_get _ (t_dim T)); [rewrite zget_map, zget_zrange by exact Ha; reflexivity|intros; rewrite zlen_map, zlen_zrange; lia|exact He|exact Ha].
    + destruct (v_verts T V d ltac:(lia)) as (VL & _ & VB). fold deg in VL. apply tags_from_sums; try assumption.
      * split; [exact Hdeg|]. unfold deg. assert (d = 1 \/ d = 2 \/ d = 3) as [->|[->| ->]] by lia; destruct (t_family T); vm_compute; discriminate.
      * intros e row [He Hr]. destruct (Z.eqb_spec d 0); [contradiction|]. fold deg in Hr. split; [apply Hr|]. split.
        -- intros v Hv. apply In_nth_error in Hv as (i & Hi). apply VB. assert (zget row (Z.of_nat i) = Ok v) as Zi by (apply zget_nat, Hi). pose proof (zget_bounds _ _ _ Zi) as Bi. rewrite (proj1 Hr) in Bi.
           destruct (proj2 Hr _ Bi) as (x & X1 & X2). assert (x = v) as -> by congruence. eapply zget_In, X1.
        -- intros a _. cbv beta delta [S]. replace row with (tuple (t_verts T d) deg e); [reflexivity|]. apply (row_is_unique deg (t_verts T d) e); [apply (row_is_tuple deg (t_verts T d) (t_nents T d)); [lia|exact VL|exact He]|exact Hr].
Qed.
Lemma dims_classified c ds : forall m, ready T m -> Forall (fun d => 0 <= d <= t_dim T) ds -> exists m' tags, classify_dims c m coords n ds = Ok (Some (m', tags)) /\ ready T m' /\ Forall2 (tags_right n T place) ds tags.
Proof.
  induction ds as [|d ds IH]; intros m R HF; [exists m, []; split; [reflexivity|]; split; [exact R|constructor]|]. inversion HF as [|? ? Hd HF']; subst. cbn [classify_dims]. rewrite (i_dim T m (proj1 R)).
  destruct (dim_classified c m d R Hd) as (cs & m1 & tags & E1 & R1 & E2 & K). unfold bindo at 1. rewrite E1. cbn [bind fst snd]. rewrite E2. cbn [bind]. destruct (IH m1 R1 HF') as (m2 & rest & E3 & R2 & K2).
  unfold bindo. rewrite E3. cbn [bind fst snd]. exists m2, (tags :: rest). split; [reflexivity|]. split; [exact R2|]. constructor; assumption.
Qed.
End mesh.
Lemma mesh_classified c T m coords place nx ny nz : valid_topology T -> mesh_of T m -> (forall a, 0 <= a < t_dim T -> 0 < cells_along nx ny nz a) -> places (t_dim T) (t_nents T 0) coords place ->
  (forall v a, 0 <= v < t_nents T 0 -> 0 <= a < t_dim T -> 0 <= axis a (place v) <= 2 * cells_along nx ny nz a) ->
  exists m' tags, classify_box c m coords nx ny nz = Ok (Some (m', tags)) /\ classified (cells_along nx ny nz) T place tags.
Proof.
  intros V HM Hn HP HI. pose proof (v_dim T V) as HD. pose proof (mesh_ready T m V HM) as R. unfold classify_box. rewrite (i_dim T m (proj1 R)). rewrite (proj2 (Z.leb_le 1 _)), (proj2 (Z.leb_le _ 3)) by lia. cbn [andb check bind].
  destruct (dims_classified (cells_along nx ny nz) T coords place V Hn HP HI c (zrange (t_dim T + 1)) m R) as (m' & tags & E & _ & K).
  { apply Forall_forall. intros d Hd. apply in_zrange in Hd. lia. }
  exists m', tags. split; [exact E|]. split.
  - rewrite <- (Forall2_zlen _ _ _ K). apply zlen_zrange. lia.
  - intros d Hd. destruct (Forall2_zget _ _ _ K d d) as (y & Y1 & Y2); [apply zget_zrange; lia|]. destruct y as [ids dims]. exists ids, dims. split; [exact Y1|]. exact Y2.
Qed.

(** ** Parts within parts *)
Lemma stand_flat m xs d : stand m xs d -> d = 0 \/ d = 1 \/ d = 2.
Proof. intros [[-> _]|[[-> _]|[-> _]]]; auto. Qed.
Lemma stand_part m xs ys d d' : 0 < m -> 1 <= zlen ys -> (forall y, In y ys -> In y xs) -> stand m xs d -> stand m ys d' -> d = 1 \/ d' = d.
Proof.
  intros Hm Hl HS [[-> A]|[[-> A]|[-> _]]] H; [right|right|left; reflexivity].
  - symmetry. apply (stand_unique m ys); try assumption. left. split; [reflexivity|]. intros y Hy. apply A, HS, Hy.
  - symmetry. apply (stand_unique m ys); try assumption. right. left. split; [reflexivity|]. intros y Hy. apply A, HS, Hy.
Qed.
Lemma part_of_part dim n pts pts' id cd id' cd' : 1 <= dim <= 3 -> (forall a, 0 <= a < dim -> 0 < n a) -> pts' <> [] -> (forall p, In p pts' -> In p pts) ->
  on_part dim n pts id cd -> on_part dim n pts' id' cd' -> cd' <= cd /\ (cd' = cd -> id' = id).
Proof.
  intros Hd Hn H0 HS (dg & G1 & -> & ->) (dg' & G2 & -> & ->).
  assert (forall a, 0 <= a < dim -> dg a = 1 \/ dg' a = dg a) as K.
  { intros a Ha. refine (stand_part (n a) _ _ _ _ (Hn a Ha) _ _ (G1 a Ha) (G2 a Ha)).
    - rewrite zlen_map. destruct pts'; [contradiction|]. rewrite zlen_cons. pose proof (zlen_nonneg pts'). lia.
    - intros y Hy. apply in_map_iff in Hy as (p & <- & Hp). apply in_map, HS, Hp. }
  assert (forall a, 0 <= a < dim -> dg' a = dg a \/ (dg a = 1 /\ dg' a <> 1)) as K'.
  { intros a Ha. destruct (K a Ha) as [E|E]; [|left; exact E]. destruct (Z.eq_dec (dg' a) 1); [left; congruence|right; split; assumption]. } clear K.
  assert (dim = 1 \/ dim = 2 \/ dim = 3) as [->|[->| ->]] by lia.
  - change (zrange 1) with [0]. cbn [map zsum fold_right]. destruct (K' 0 ltac:(lia)) as [->|[A0 B0]]; [|apply Z.eqb_neq in B0; rewrite A0, B0; cbn [Z.eqb Pos.eqb]]; lia.
  - change (zrange 2) with [0; 1]. cbn [map zsum fold_right]. destruct (K' 0 ltac:(lia)) as [->|[A0 B0]]; [|apply Z.eqb_neq in B0; rewrite A0, B0; cbn [Z.eqb Pos.eqb]]; (destruct (K' 1 ltac:(lia)) as [->|[A1 B1]]; [|apply Z.eqb_neq in B1; rewrite A1, B1; cbn [Z.eqb Pos.eqb]]); lia.
  - change (zrange 3) with [0; 1; 2]. cbn [map zsum fold_right]. destruct (K' 0 ltac:(lia)) as [->|[A0 B0]]; [|apply Z.eqb_neq in B0; rewrite A0, B0; cbn [Z.eqb Pos.eqb]]; (destruct (K' 1 ltac:(lia)) as [->|[A1 B1]]; [|apply Z.eqb_neq in B1; rewrite A1, B1; cbn [Z.eqb Pos.eqb]]);
      (destruct (K' 2 ltac:(lia)) as [->|[A2 B2]]; [|apply Z.eqb_neq in B2; rewrite A2, B2; cbn [Z.eqb Pos.eqb]]); lia.
Qed.

(** ** How far entities extend *)
Definition flat (a : Z) (pts : list point) : Prop := forall p q, In p pts -> In q pts -> axis a p = axis a q.
Lemma stand_wide n a pts d : stand n (map (axis a) pts) d -> d = 1 \/ flat a pts.
Proof.
  intros [[-> A]|[[-> A]|[-> _]]]; [right|right|left; reflexivity]; intros p q Hp Hq; rewrite (A (axis a p)), (A (axis a q)); try reflexivity; apply in_map; assumption.
Qed.
Lemma simplex_wide dim pts a : 1 <= dim <= 3 -> zlen pts = dim + 1 -> 0 < size dim pts -> 0 <= a < dim -> ~ flat a pts.
Proof.
  intros Hd HL HS Ha HF. assert (dim = 1 \/ dim = 2 \/ dim = 3) as [->|[->| ->]] by lia.
  - destruct pts as [|[[x0 y0] z0] [|[[x1 y1] z1] [|? ?]]]; try (unfold zlen in HL; cbn in HL; lia). pose proof (HF _ _ (or_introl eq_refl) (or_intror (or_introl eq_refl))) as K. assert (a = 0) as -> by lia. cbn [axis] in K. cbn [size minus axis] in HS. lia.
  - destruct pts as [|[[x0 y0] z0] [|[[x1 y1] z1] [|[[x2 y2] z2] [|? ?]]]]; try (unfold zlen in HL; cbn in HL; lia). pose proof (HF _ _ (or_introl eq_refl) (or_intror (or_introl eq_refl))) as K1. pose proof (HF _ _ (or_introl eq_refl) (or_intror (or_intror (or_introl eq_refl)))) as K2.
    assert (a = 0 \/ a = 1) as [->| ->] by lia; cbn [axis] in K1, K2; subst; cbn [size minus axis] in HS; ring_simplify in HS; lia.
  - destruct pts as [|[[x0 y0] z0] [|[[x1 y1] z1] [|[[x2 y2] z2] [|[[x3 y3] z3] [|? ?]]]]]; try (unfold zlen in HL; cbn in HL; lia). pose proof (HF _ _ (or_introl eq_refl) (or_intror (or_introl eq_refl))) as K1. pose proof (HF _ _ (or_introl eq_refl) (or_intror (or_intror (or_introl eq_refl)))) as K2.
    pose proof (HF _ _ (or_introl eq_refl) (or_intror (or_intror (or_intror (or_introl eq_refl))))) as K3.
    assert (a = 0 \/ a = 1 \/ a = 2) as [->|[->| ->]] by lia; cbn [axis] in K1, K2, K3; subst; cbn [size volume6 det3 minus axis] in HS; ring_simplify in HS; lia.
Qed.
Lemma cell_wide dim b a : 1 <= dim <= 3 -> 0 <= a < dim -> ~ flat a (cell_corners dim b).
Proof.
  intros Hd Ha HF. destruct b as [[x y] z]. assert (forall k, 0 <= k < 2 ^ dim -> In (plus (x, y, z) (twice (corner k))) (cell_corners dim (x, y, z))) as K by (intros k Hk; unfold cell_corners; apply (in_map (fun p => plus (x, y, z) (twice (corner p)))), in_zrange, Hk).
  assert (a = 0 \/ (a = 1 /\ 2 <= dim) \/ (a = 2 /\ dim = 3)) as [->|[[-> D]|[-> ->]]] by lia.
  - pose proof (Z.pow_le_mono_r 2 1 dim ltac:(lia) ltac:(lia)) as P. change (2 ^ 1) with 2 in P. pose proof (HF _ _ (K 0 ltac:(lia)) (K 1 ltac:(lia))) as E. change (corner 0) with (0, 0, 0) in E. change (corner 1) with (1, 0, 0) in E. change (corner 3) with (0, 1, 0) in E. change (corner 4) with (0, 0, 1) in E. cbn [plus twice axis] in E. lia.
  - pose proof (Z.pow_le_mono_r 2 2 dim ltac:(lia) ltac:(lia)) as P. change (2 ^ 2) with 4 in P. pose proof (HF _ _ (K 0 ltac:(lia)) (K 3 ltac:(lia))) as E. change (corner 0) with (0, 0, 0) in E. change (corner 1) with (1, 0, 0) in E. change (corner 3) with (0, 1, 0) in E. change (corner 4) with (0, 0, 1) in E. cbn [plus twice axis] in E. lia.
  - change (2 ^ 3) with 8 in K. pose proof (HF _ _ (K 0 ltac:(lia)) (K 4 ltac:(lia))) as E. change (corner 0) with (0, 0, 0) in E. change (corner 1) with (1, 0, 0) in E. change (corner 3) with (0, 1, 0) in E. change (corner 4) with (0, 0, 1) in E. cbn [plus twice axis] in E. lia.
Qed.
Lemma upright_wide f dim pts a : 1 <= dim <= 3 -> zlen pts = element_degree f dim 0 -> right_side_out f dim pts -> 0 <= a < dim -> ~ flat a pts.
Proof.
  intros Hd HL HR Ha. destruct f; cbn [right_side_out] in HR.
  - apply (simplex_wide dim); try assumption. rewrite HL. assert (dim = 1 \/ dim = 2 \/ dim = 3) as [->|[->| ->]] by lia; reflexivity.
  - destruct HR as (b & ->). apply cell_wide; assumption.
Qed.
Ltac face_points HF := repeat match type of HF with
  | Forall2 _ (_ :: _) _ => let Hz := fresh "Hz" in let HF' := fresh "HF" in inversion HF as [|? ? ? ? Hz HF']; clear HF; subst; rename HF' into HF; cbv in Hz; injection Hz as <-
  | Forall2 _ [] _ => inversion HF; clear HF; subst end.
Ltac flat_eqs F := let F1 := fresh in let F2 := fresh in pose proof (F _ _ (or_introl eq_refl) (or_intror (or_introl eq_refl))) as F1; pose proof (F _ _ (or_introl eq_refl) (or_intror (or_intror (or_introl eq_refl)))) as F2; cbn [axis] in F1, F2.
Lemma face_wide f pts w fpts a b : zlen pts = element_degree f 3 0 -> right_side_out f 3 pts -> 0 <= w < element_degree f 3 2 -> Forall2 (fun j p => zget pts j = Ok p) (side_verts f 3 2 w) fpts ->
  0 <= a -> a < b < 3 -> flat a fpts -> flat b fpts -> False.
Proof.
  intros HL HR Hw HF Ha Hb A B. destruct f; cbn [right_side_out] in HR.
  - change (element_degree OMEGA_H_SIMPLEX 3 2) with 4 in Hw. change (element_degree OMEGA_H_SIMPLEX 3 0) with 4 in HL.
    destruct pts as [|[[x0 y0] z0] [|[[x1 y1] z1] [|[[x2 y2] z2] [|[[x3 y3] z3] [|? ?]]]]]; try (unfold zlen in HL; cbn in HL; lia).
    assert (exists u v t, In u fpts /\ In v fpts /\ In t fpts /\ ((u = (x0, y0, z0) /\ v = (x1, y1, z1) /\ t = (x2, y2, z2)) \/ (u = (x0, y0, z0) /\ v = (x1, y1, z1) /\ t = (x3, y3, z3)) \/
      (u = (x1, y1, z1) /\ v = (x2, y2, z2) /\ t = (x3, y3, z3)) \/ (u = (x0, y0, z0) /\ v = (x2, y2, z2) /\ t = (x3, y3, z3)))) as (u & v & t & U & V & T & K).
    { assert (w = 0 \/ w = 1 \/ w = 2 \/ w = 3) as [->|[->|[->| ->]]] by lia;
        [change (side_verts OMEGA_H_SIMPLEX 3 2 0) with [0; 2; 1] in HF|change (side_verts OMEGA_H_SIMPLEX 3 2 1) with [0; 1; 3] in HF|change (side_verts OMEGA_H_SIMPLEX 3 2 2) with [1; 2; 3] in HF|change (side_verts OMEGA_H_SIMPLEX 3 2 3) with [2; 0; 3] in HF];
        face_points HF.
      - exists (x0, y0, z0), (x1, y1, z1), (x2, y2, z2). cbn; tauto.
      - exists (x0, y0, z0), (x1, y1, z1), (x3, y3, z3). cbn; tauto.
      - exists (x1, y1, z1), (x2, y2, z2), (x3, y3, z3). cbn; tauto.
      - exists (x0, y0, z0), (x2, y2, z2), (x3, y3, z3). cbn; tauto. }
    pose proof (A _ _ U V) as A1. pose proof (A _ _ U T) as A2. pose proof (B _ _ U V) as B1. pose proof (B _ _ U T) as B2. clear A B U V T HF. cbn [size volume6 det3 minus] in HR.
    assert ((a = 0 /\ b = 1) \/ (a = 0 /\ b = 2) \/ (a = 1 /\ b = 2)) as [[-> ->]|[[-> ->]|[-> ->]]] by lia; destruct K as [(-> & -> & ->)|[(-> & -> & ->)|[(-> & -> & ->)|(-> & -> & ->)]]]; cbn [axis] in A1, A2, B1, B2; subst; ring_simplify in HR; lia.
  - destruct HR as ([[x y] z] & ->). change (element_degree OMEGA_H_HYPERCUBE 3 2) with 6 in Hw. assert (forall j, In j (side_verts OMEGA_H_HYPERCUBE 3 2 w) -> 0 <= j < 8 -> In (plus (x, y, z) (twice (corner j))) fpts) as K.
    { clear - HF. induction HF as [|j p js ps Hj HF IH]; intros i Hi Bi; [contradiction|]. destruct Hi as [<-|Hi]; [|right; apply IH; assumption]. left. unfold cell_corners in Hj. change (2 ^ 3) with 8 in Hj. rewrite zget_map, zget_zrange in Hj by exact Bi. injection Hj as <-. reflexivity. }
    clear HF. assert (w = 0 \/ w = 1 \/ w = 2 \/ w = 3 \/ w = 4 \/ w = 5) as Cw by lia.
    destruct Cw as [->|[->|[->|[->|[->| ->]]]]];
      [change (side_verts OMEGA_H_HYPERCUBE 3 2 0) with [1; 0; 3; 2] in K; pose proof (K 1) as K1; pose proof (K 0) as K2; pose proof (K 2) as K3
      |change (side_verts OMEGA_H_HYPERCUBE 3 2 1) with [0; 1; 5; 4] in K; pose proof (K 0) as K1; pose proof (K 1) as K2; pose proof (K 4) as K3
      |change (side_verts OMEGA_H_HYPERCUBE 3 2 2) with [1; 2; 6; 5] in K; pose proof (K 1) as K1; pose proof (K 2) as K2; pose proof (K 5) as K3
      |change (side_verts OMEGA_H_HYPERCUBE 3 2 3) with [2; 3; 7; 6] in K; pose proof (K 2) as K1; pose proof (K 3) as K2; pose proof (K 6) as K3
      |change (side_verts OMEGA_H_HYPERCUBE 3 2 4) with [3; 0; 4; 7] in K; pose proof (K 3) as K1; pose proof (K 0) as K2; pose proof (K 7) as K3
      |change (side_verts OMEGA_H_HYPERCUBE 3 2 5) with [4; 5; 6; 7] in K; pose proof (K 4) as K1; pose proof (K 5) as K2; pose proof (K 7) as K3];
      clear K; specialize (K1 ltac:(cbn; tauto) ltac:(lia)); specialize (K2 ltac:(cbn; tauto) ltac:(lia)); specialize (K3 ltac:(cbn; tauto) ltac:(lia));
      pose proof (A _ _ K1 K2) as A1; pose proof (A _ _ K1 K3) as A2; pose proof (B _ _ K1 K2) as B1; pose proof (B _ _ K1 K3) as B2; clear A B K1 K2 K3;
      (assert ((a = 0 /\ b = 1) \/ (a = 0 /\ b = 2) \/ (a = 1 /\ b = 2)) as [[-> ->]|[[-> ->]|[-> ->]]] by lia); repeat match goal with H : context [corner ?k] |- _ => let v := eval vm_compute in (corner k) in change (corner k) with v in H end; cbn [plus twice axis] in A1, A2, B1, B2; lia.
Qed.
Lemma wide_count dim n pts id cd : 1 <= dim <= 3 -> on_part dim n pts id cd -> 0 <= cd <= dim /\
  ((forall a, 0 <= a < dim -> ~ flat a pts) -> cd = dim) /\ ((exists a, 0 <= a < dim /\ ~ flat a pts) -> 1 <= cd) /\
  (dim = 3 -> (forall a b, 0 <= a -> a < b < 3 -> flat a pts -> flat b pts -> False) -> 2 <= cd).
Proof.
  intros Hd (dg & G & -> & ->).
  assert (forall a, 0 <= a < dim -> (if dg a =? 1 then 1 else 0) = 1 \/ ((if dg a =? 1 then 1 else 0) = 0 /\ flat a pts)) as K.
  { intros a Ha. destruct (Z.eqb_spec (dg a) 1) as [E|E]; [left; reflexivity|right]. split; [reflexivity|]. destruct (stand_wide _ _ _ _ (G a Ha)); [contradiction|assumption]. }
  assert (dim = 1 \/ dim = 2 \/ dim = 3) as [->|[->| ->]] by lia.
  - change (zrange 1) with [0]. cbn [map zsum fold_right]. pose proof (K 0 ltac:(lia)) as K0. set (u0 := if dg 0 =? 1 then 1 else 0) in *. clearbody u0. clear K G. split; [lia|]. split; [|split; [|lia]].
    + intros N. destruct K0 as [->|[_ F]]; [lia|]. destruct (N 0 ltac:(lia) F).
    + intros (a & Ha & N). assert (a = 0) as -> by lia. destruct K0 as [->|[_ F]]; [lia|contradiction].
  - change (zrange 2) with [0; 1]. cbn [map zsum fold_right]. pose proof (K 0 ltac:(lia)) as K0. pose proof (K 1 ltac:(lia)) as K1. set (u0 := if dg 0 =? 1 then 1 else 0) in *. set (u1 := if dg 1 =? 1 then 1 else 0) in *. clearbody u0 u1. clear K G. split; [lia|]. split; [|split; [|lia]].
    + intros N. destruct K0 as [->|[_ F]]; [|destruct (N 0 ltac:(lia) F)]. destruct K1 as [->|[_ F]]; [lia|]. destruct (N 1 ltac:(lia) F).
    + intros (a & Ha & N). assert (a = 0 \/ a = 1) as [->| ->] by lia; [destruct K0 as [->|[_ F]]|destruct K1 as [->|[_ F]]]; lia || contradiction.
  - change (zrange 3) with [0; 1; 2]. cbn [map zsum fold_right]. pose proof (K 0 ltac:(lia)) as K0. pose proof (K 1 ltac:(lia)) as K1. pose proof (K 2 ltac:(lia)) as K2.
    set (u0 := if dg 0 =? 1 then 1 else 0) in *. set (u1 := if dg 1 =? 1 then 1 else 0) in *. set (u2 := if dg 2 =? 1 then 1 else 0) in *. clearbody u0 u1 u2. clear K G. split; [lia|]. split; [|split].
    + intros N. destruct K0 as [->|[_ F]]; [|destruct (N 0 ltac:(lia) F)]. destruct K1 as [->|[_ F]]; [|destruct (N 1 ltac:(lia) F)]. destruct K2 as [->|[_ F]]; [lia|]. destruct (N 2 ltac:(lia) F).
    + intros (a & Ha & N). assert (a = 0 \/ a = 1 \/ a = 2) as [->|[->| ->]] by lia; [destruct K0 as [->|[_ F]]|destruct K1 as [->|[_ F]]|destruct K2 as [->|[_ F]]]; lia || contradiction.
    + intros _ N. destruct K0 as [->|[-> F0]], K1 as [->|[-> F1]], K2 as [->|[-> F2]]; try lia; exfalso;
        first [exact (N 0 1 ltac:(lia) ltac:(lia) F0 F1)|exact (N 0 2 ltac:(lia) ltac:(lia) F0 F2)|exact (N 1 2 ltac:(lia) ltac:(lia) F1 F2)].
Qed.
Lemma surface_count dim n pts id cd : 1 <= dim <= 3 -> on_part dim n pts id cd -> (on_surface dim n pts <-> cd < dim) \/ pts = [] \/ exists a, 0 <= a < dim /\ n a <= 0.
Proof.
  intros Hd (dg & G & -> & ->). destruct pts as [|p pts]; [right; left; reflexivity|].
  assert (forall a, 0 <= a < dim -> 0 < n a \/ n a <= 0) as D by (intros; lia).
  assert ((forall a, 0 <= a < dim -> 0 < n a) \/ exists a, 0 <= a < dim /\ n a <= 0) as [Hn|Hn].
  { assert (dim = 1 \/ dim = 2 \/ dim = 3) as [->|[->| ->]] by lia.
    - destruct (Z_lt_le_dec 0 (n 0)); [left; intros a Ha; assert (a = 0) as -> by lia; assumption|right; exists 0; lia].
    - destruct (Z_lt_le_dec 0 (n 0)); [|right; exists 0; lia]. destruct (Z_lt_le_dec 0 (n 1)); [|right; exists 1; lia]. left. intros a Ha; assert (a = 0 \/ a = 1) as [->| ->] by lia; assumption.
    - destruct (Z_lt_le_dec 0 (n 0)); [|right; exists 0; lia]. destruct (Z_lt_le_dec 0 (n 1)); [|right; exists 1; lia]. destruct (Z_lt_le_dec 0 (n 2)); [|right; exists 2; lia]. left. intros a Ha; assert (a = 0 \/ a = 1 \/ a = 2) as [->|[->| ->]] by lia; assumption. }
  2: { right. right. exact Hn. }
  left. assert (forall a, 0 <= a < dim -> (dg a <> 1 <-> ((forall q, In q (p :: pts) -> axis a q = 0) \/ (forall q, In q (p :: pts) -> axis a q = 2 * n a)))) as S.
  { intros a Ha. specialize (G a Ha). split.
    - intros N. destruct G as [[_ A]|[[_ A]|[E _]]]; [left|right|contradiction]; intros q Hq; apply A, in_map, Hq.
    - intros A E. assert (dg a = 0 \/ dg a = 2) as [F|F]; [|lia|lia]. destruct A as [A|A]; [left|right]; apply (stand_unique (n a) (map (axis a) (p :: pts)) _ _ (Hn a Ha)); try assumption;
        try (rewrite zlen_map, zlen_cons; pose proof (zlen_nonneg pts); lia); [left|right; left]; (split; [reflexivity|]); intros x Hx; apply in_map_iff in Hx as (q & <- & Hq); apply A, Hq. }
  assert (on_surface dim n (p :: pts) <-> exists a, 0 <= a < dim /\ dg a <> 1) as ->.
  { split; intros (a & Ha & A); exists a; (split; [exact Ha|]); apply (S a Ha), A. }
  clear S G. assert (dim = 1 \/ dim = 2 \/ dim = 3) as [->|[->| ->]] by lia.
  - change (zrange 1) with [0]. cbn [map zsum fold_right]. split.
    + intros (a & Ha & N). assert (a = 0) as -> by lia. apply Z.eqb_neq in N. rewrite N. lia.
    + intros L. exists 0. split; [lia|]. destruct (Z.eqb_spec (dg 0) 1); [lia|assumption].
  - change (zrange 2) with [0; 1]. cbn [map zsum fold_right]. split.
    + intros (a & Ha & N). assert (a = 0 \/ a = 1) as [->| ->] by lia; apply Z.eqb_neq in N; rewrite N; [destruct (dg 1 =? 1)|destruct (dg 0 =? 1)]; lia.
    + intros L. destruct (Z.eqb_spec (dg 0) 1); [|exists 0; split; [lia|assumption]]. destruct (Z.eqb_spec (dg 1) 1); [lia|exists 1; split; [lia|assumption]].
  - change (zrange 3) with [0; 1; 2]. cbn [map zsum fold_right]. split.
    + intros (a & Ha & N). assert (a = 0 \/ a = 1 \/ a = 2) as [->|[->| ->]] by lia; apply Z.eqb_neq in N; rewrite N; destruct (dg 1 =? 1), (dg 0 =? 1), (dg 2 =? 1); lia.
    + intros L. destruct (Z.eqb_spec (dg 0) 1); [|exists 0; split; [lia|assumption]]. destruct (Z.eqb_spec (dg 1) 1); [|exists 1; split; [lia|assumption]]. destruct (Z.eqb_spec (dg 2) 1); [lia|exists 2; split; [lia|assumption]].
Qed.

(** ** The whole mesh *)
Lemma class_read n T place tags d e id cd : valid_topology T -> classified n T place tags -> 0 <= d <= t_dim T -> entity_class tags d e id cd -> exists row, entity_row T d e row /\ on_part (t_dim T) n (map place row) id cd.
Proof.
  intros V [_ HC] Hd (ids & dims & E1 & E2 & E3). destruct (HC d Hd) as (ids' & dims' & F1 & L1 & L2 & K). rewrite E1 in F1. injection F1 as <- <-. pose proof (zget_bounds _ _ _ E2) as Be. rewrite L1 in Be.
  assert (exists row, entity_row T d e row) as (row & HR).
  { unfold entity_row. destruct (Z.eqb_spec d 0); [exists [e]; split; [exact Be|reflexivity]|]. exists (tuple (t_verts T d) (element_degree (t_family T) d 0) e). split; [exact Be|].
    assert (0 < element_degree (t_family T) d 0) by (apply degree_pos; pose proof (v_dim T V); lia). apply (row_is_tuple _ _ (t_nents T d)); [lia|apply (v_verts T V d ltac:(lia))|exact Be]. }
  exists row. split; [exact HR|]. destruct (K e row HR) as (id' & cd' & G1 & G2 & G3). assert (id' = id) as -> by congruence. assert (cd' = cd) as -> by congruence. exact G3.
Qed.
Lemma entity_nonempty T d e row : valid_topology T -> 0 <= d <= t_dim T -> entity_row T d e row -> row <> [].
Proof.
  intros V Hd [_ HR]. destruct (Z.eqb_spec d 0); [subst; discriminate|]. intros ->. destruct HR as [L _]. assert (0 < element_degree (t_family T) d 0) by (apply degree_pos; pose proof (v_dim T V); lia). change (zlen (@nil Z)) with 0 in L. lia.
Qed.
Lemma entity_bounds T d e row : valid_topology T -> 0 <= d <= t_dim T -> entity_row T d e row -> forall v, In v row -> 0 <= v < t_nents T 0.
Proof.
  intros V Hd [He HR] v Hv. destruct (Z.eqb_spec d 0) as [->|N]; [subst; destruct Hv as [<-|[]]; exact He|].
  apply In_nth_error in Hv as (i & Hi). apply (v_verts T V d ltac:(lia)). assert (zget row (Z.of_nat i) = Ok v) as Zi by (apply zget_nat, Hi). pose proof (zget_bounds _ _ _ Zi) as Bi. rewrite (proj1 HR) in Bi.
  destruct (proj2 HR _ Bi) as (x & X1 & X2). assert (x = v) as -> by congruence. eapply zget_In, X1.
Qed.
Lemma classes_fit f dim ev2v nv n T coords place tags : topology_of f dim ev2v nv T -> (forall a, 0 <= a < dim -> 0 < n a) -> places dim nv coords place -> fills_box n T place -> classified n T place tags -> class_fits T tags.
Proof.
  intros HT Hn [_ HP] HB HC. pose proof HT as (V & F & D & NV & EV & HO). pose proof (v_dim T V) as HD.
  assert (forall d e id cd, 0 <= d <= t_dim T -> entity_class tags d e id cd -> d <= cd <= t_dim T) as first.
  { intros d e id cd Hd HE. destruct (class_read n T place tags d e id cd V HC Hd HE) as (row & HR & HPt). pose proof (entity_bounds T d e row V Hd HR) as RB.
    destruct (wide_count (t_dim T) n _ id cd HD HPt) as (B0 & B1 & B2 & B3). split; [|lia]. destruct HR as [He HR]. destruct (Z.eqb_spec d 0) as [->|N0]; [lia|].
    destruct (Z.eq_dec d (t_dim T)) as [->|Nd].
    - rewrite B1; [lia|]. intros a Ha. apply (upright_wide (t_family T) (t_dim T)); [exact HD|rewrite zlen_map; apply HR|apply (fb_upright _ _ _ HB e row HR)|exact Ha].
    - destruct (Z.eq_dec d 1) as [->|N1].
      + apply B2. assert (NoDup row) as ND by (apply (proj1 (proj2 (v_verts T V 1 ltac:(lia)))) with e; exact HR). destruct HR as [L _]. assert (element_degree (t_family T) 1 0 = 2) as E2 by (destruct (t_family T); reflexivity). rewrite E2 in L.
        destruct row as [|v [|w [|? ?]]]; try (unfold zlen in L; cbn in L; lia). pose proof (RB v (or_introl eq_refl)) as Bv. pose proof (RB w (or_intror (or_introl eq_refl))) as Bw.
        assert (place v <> place w) as NP. { intros E. apply (fb_apart _ _ _ HB v w Bv Bw) in E. subst. inversion ND as [|? ? NI _]; subst. apply NI. left. reflexivity. }
        assert (forall a, flat a (map place [v; w]) -> axis a (place v) = axis a (place w)) as FA by (intros a K; apply K; cbn; auto).
        rewrite <- D in HP. rewrite <- NV in HP. assert (forall a, t_dim T <= a < 3 -> axis a (place v) = axis a (place w)) as FB by (intros a Ha; rewrite (proj2 (HP v a Bv) Ha), (proj2 (HP w a Bw) Ha); reflexivity).
        assert (exists a, 0 <= a < 3 /\ axis a (place v) <> axis a (place w)) as (a & Ha & Na).
        { destruct (place v) as [[x y] z], (place w) as [[x' y'] z']. destruct (Z.eq_dec x x') as [->|]; [|exists 0; split; [lia|assumption]]. destruct (Z.eq_dec y y') as [->|]; [|exists 1; split; [lia|assumption]].
          destruct (Z.eq_dec z z') as [->|]; [congruence|exists 2; split; [lia|assumption]]. }
        exists a. split; [|intros K; apply Na, FA, K]. destruct (Z_lt_le_dec a (t_dim T)); [lia|]. exfalso. apply Na, FB. lia.
      + assert (d = 2) as -> by lia. assert (t_dim T = 3) as D3 by lia. apply (B3 D3). assert (dim = 3) as -> by lia. destruct (HO 2 ltac:(lia)) as [H1 _]. rewrite F in HR. destruct (H1 e row HR) as (h & u & hrow & RH & Hu & HF).
        intros a b Ha Hb. apply (face_wide f (map place hrow) u (map place row) a b); try assumption.
        * rewrite zlen_map. apply RH.
        * rewrite <- F, <- D. apply (fb_upright _ _ _ HB h). rewrite F, D, EV. exact RH.
        * clear - HF. induction HF as [|j x js xs Hj HF IH]; constructor; [rewrite zget_map, Hj; reflexivity|exact IH]. }
  split; [exact first|]. split.
  - intros s id cd HE. destruct (class_read n T place tags (t_dim T - 1) s id cd V HC ltac:(lia) HE) as (row & HR & HPt). pose proof (first (t_dim T - 1) s id cd ltac:(lia) HE) as Bc.
    assert (side_row T s row) as SR. { destruct HR as [_ HR]. unfold side_row. destruct (Z.eqb_spec (t_dim T - 1) 0), (Z.eqb_spec (t_dim T) 1); try lia; exact HR. }
    destruct (surface_count (t_dim T) n _ id cd HD HPt) as [SC|[E|(a & Ha & Na)]].
    + destruct (fb_sides _ _ _ HB s row (proj1 HR) SR) as [[S U]|[S U]]; [left|right]; (split; [exact U|]).
      * apply SC in S. lia.
      * destruct (Z.eq_dec cd (t_dim T)); [assumption|]. exfalso. apply S, SC. lia.
    + apply map_eq_nil in E. destruct (entity_nonempty T (t_dim T - 1) s row V ltac:(lia) HR E).
    + specialize (Hn a ltac:(lia)). lia.
  - intros d e row d' e' row' id cd id' cd' Hd Hd' HR HR' HS HE HE'. destruct (class_read n T place tags d e id cd V HC Hd HE) as (r & R1 & P1). destruct (class_read n T place tags d' e' id' cd' V HC Hd' HE') as (r' & R1' & P1').
    assert (forall dd ee ra rb, entity_row T dd ee ra -> entity_row T dd ee rb -> ra = rb) as UQ. { intros dd ee ra rb [_ A] [_ B]. destruct (dd =? 0); [congruence|]. eapply row_is_unique; eassumption. }
    assert (r = row) as -> by (eapply UQ; eassumption). assert (r' = row') as -> by (eapply UQ; eassumption).
    apply (part_of_part (t_dim T) n (map place row) (map place row')); try assumption.
    + rewrite D. exact Hn.
    + intros E. apply map_eq_nil in E. apply (entity_nonempty T d' e' row' V Hd' HR' E).
    + intros p Hp. apply in_map_iff in Hp as (v & <- & Hv). apply in_map, HS, Hv.
Qed.

(** ** Names *)
Lemma digits_apart (x y z x' y' z' : Z) : (x = 0 \/ x = 1 \/ x = 2) -> (y = 0 \/ y = 1 \/ y = 2) -> (z = 0 \/ z = 1 \/ z = 2) -> (x' = 0 \/ x' = 1 \/ x' = 2) -> (y' = 0 \/ y' = 1 \/ y' = 2) -> (z' = 0 \/ z' = 1 \/ z' = 2) ->
  x + 3 * y + 9 * z = x' + 3 * y' + 9 * z' -> x = x' /\ y = y' /\ z = z'.
Proof. lia. Qed.
Definition code_digits (dim : Z) (dg : Z -> Z) : Z * Z := (zsum (map (fun a => if dg a =? 1 then 1 else 0) (zrange dim)), zsum (map (fun a => dg a * 3 ^ a) (zrange dim))).
Lemma code_unique dim n pts dg id cd : 1 <= dim <= 3 -> (forall a, 0 <= a < dim -> 0 < n a) -> pts <> [] -> (forall a, 0 <= a < dim -> dg a = 0 \/ dg a = 1 \/ dg a = 2) -> code_digits dim dg = (cd, id) ->
  (on_part dim n pts id cd <-> forall a, 0 <= a < dim -> stand (n a) (map (axis a) pts) (dg a)).
Proof.
  intros Hd Hn H0 Hg E. injection E as E1 E2. split.
  - intros (dg' & G & Eid & _). assert (forall a, 0 <= a < dim -> dg' a = dg a) as K; [|intros a Ha; rewrite <- (K a Ha); apply G, Ha].
    assert (forall a, 0 <= a < dim -> dg' a = 0 \/ dg' a = 1 \/ dg' a = 2) as Hg' by (intros a Ha; eapply stand_flat, G, Ha). rewrite <- E2 in Eid. clear G E1 E2.
    assert (dim = 1 \/ dim = 2 \/ dim = 3) as [->|[->| ->]] by lia.
    + change (zrange 1) with [0] in Eid. cbn [map zsum fold_right] in Eid. change (3 ^ 0) with 1 in Eid. intros a Ha. assert (a = 0) as -> by lia. lia.
    + change (zrange 2) with [0; 1] in Eid. cbn [map zsum fold_right] in Eid. change (3 ^ 0) with 1 in Eid. change (3 ^ 1) with 3 in Eid.
      destruct (digits_apart (dg' 0) (dg' 1) 0 (dg 0) (dg 1) 0) as (A & B & _); try apply Hg; try apply Hg'; try lia. intros a Ha. assert (a = 0 \/ a = 1) as [->| ->] by lia; assumption.
    + change (zrange 3) with [0; 1; 2] in Eid. cbn [map zsum fold_right] in Eid. change (3 ^ 0) with 1 in Eid. change (3 ^ 1) with 3 in Eid. change (3 ^ 2) with 9 in Eid.
      destruct (digits_apart (dg' 0) (dg' 1) (dg' 2) (dg 0) (dg 1) (dg 2)) as (A & B & C); try apply Hg; try apply Hg'; try lia. intros a Ha. assert (a = 0 \/ a = 1 \/ a = 2) as [->|[->| ->]] by lia; assumption.
  - intros G. exists dg. split; [exact G|]. split; congruence.
Qed.
Definition body_digits (a : Z) : Z := 1.
Definition side_digits (a : Z) (upper : bool) (b : Z) : Z := if b =? a then (if upper then 2 else 0) else 1.
Definition box_names (dim : Z) : list (string * list (Z * Z)) :=
  ("body"%string, [code_digits dim body_digits]) :: flat_map (fun a => [(side_name a false, [code_digits dim (side_digits a false)]); (side_name a true, [code_digits dim (side_digits a true)])]) (zrange dim).
Lemma class_sets_named dim : 1 <= dim <= 3 -> forall x, In x (get_box_class_sets dim) <-> In x (box_names dim).
Proof. intros Hd x. assert (dim = 1 \/ dim = 2 \/ dim = 3) as [->|[->| ->]] by lia; vm_compute; tauto. Qed.
Lemma body_named dim : 1 <= dim <= 3 -> exists id, In ("body"%string, [(dim, id)]) (get_box_class_sets dim) /\ forall n pts, (forall a, 0 <= a < dim -> 0 < n a) -> pts <> [] -> (on_part dim n pts id dim <-> in_body dim n pts).
Proof.
  intros Hd. exists (snd (code_digits dim body_digits)). assert (code_digits dim body_digits = (dim, snd (code_digits dim body_digits))) as E by (assert (dim = 1 \/ dim = 2 \/ dim = 3) as [->|[->| ->]] by lia; reflexivity). split.
  - apply (class_sets_named dim Hd). left. rewrite <- E. reflexivity.
  - intros n pts Hn H0. apply (code_unique dim n pts body_digits); try assumption. intros a _. right. left. reflexivity.
Qed.
Lemma side_named dim a upper : 1 <= dim <= 3 -> 0 <= a < dim -> exists id, In (side_name a upper, [(dim - 1, id)]) (get_box_class_sets dim) /\ forall n pts, (forall a, 0 <= a < dim -> 0 < n a) -> pts <> [] -> (on_part dim n pts id (dim - 1) <-> on_side dim n a upper pts).
Proof.
  intros Hd Ha. exists (snd (code_digits dim (side_digits a upper))). assert (code_digits dim (side_digits a upper) = (dim - 1, snd (code_digits dim (side_digits a upper)))) as E.
  { assert (dim = 1 \/ dim = 2 \/ dim = 3) as [->|[->| ->]] by lia; (assert (a = 0 \/ a = 1 \/ a = 2) as [->|[->| ->]] by lia); try lia; destruct upper; reflexivity. } split.
  - apply (class_sets_named dim Hd). right. apply in_flat_map. exists a. split; [apply in_zrange, Ha|]. rewrite <- E. destruct upper; cbn; auto.
  - intros n pts Hn H0. rewrite (code_unique dim n pts (side_digits a upper)); try assumption.
    + unfold on_side, side_digits. split.
      * intros G. split; [specialize (G a Ha); rewrite Z.eqb_refl in G; exact G|]. intros b Hb Nb. specialize (G b Hb). destruct (Z.eqb_spec b a); [contradiction|exact G].
      * intros [G1 G2] b Hb. destruct (Z.eqb_spec b a) as [->|Nb]; [exact G1|apply G2; assumption].
    + intros b _. unfold side_digits. destruct (b =? a); [destruct upper|]; lia.
Qed.
Lemma sets_only dim name pairs : 1 <= dim <= 3 -> In (name, pairs) (get_box_class_sets dim) -> name = "body"%string \/ exists a upper, 0 <= a < dim /\ name = side_name a upper.
Proof.
  intros Hd H. apply (class_sets_named dim Hd) in H. destruct H as [H|H]; [left; congruence|right]. apply in_flat_map in H as (a & Ha & H). apply in_zrange in Ha. cbn in H. destruct H as [H|[H|[]]]; injection H as <- _; eauto.
Qed.
Lemma cells_positive nx ny nz a : 0 < nx -> 0 <= ny -> 0 <= nz -> 0 <= a < box_dim ny nz -> 0 < cells_along nx ny nz a.
Proof.
  intros Hx Hy Hz Ha. unfold box_dim in Ha. destruct (Z.eqb_spec ny 0); [|destruct (Z.eqb_spec nz 0)]; (assert (a = 0 \/ a = 1 \/ a = 2) as [->|[->| ->]] by lia); cbn [cells_along]; lia.
Qed.
Lemma box_classified c f nx ny nz T m ev2v coords place : 0 < nx -> 0 <= ny -> 0 <= nz -> topology_of f (box_dim ny nz) ev2v (t_nents T 0) T -> mesh_of T m -> places (box_dim ny nz) (t_nents T 0) coords place -> fills_box (cells_along nx ny nz) T place ->
  exists m' tags, classify_box c m coords nx ny nz = Ok (Some (m', tags)) /\ classified (cells_along nx ny nz) T place tags /\ class_fits T tags.
Proof.
  intros Hx Hy Hz HT HM HP HB. pose proof HT as (V & F & D & _ & EV & HO). destruct (mesh_classified c T m coords place nx ny nz V HM) as (m' & tags & E & K).
  - rewrite D. intros a Ha. apply cells_positive; assumption.
  - rewrite D. exact HP.
  - apply (fb_inside _ _ _ HB).
  - exists m', tags. split; [exact E|]. split; [exact K|]. apply (classes_fit f (box_dim ny nz) ev2v (t_nents T 0) (cells_along nx ny nz) T coords place tags HT); try assumption. intros a Ha. apply cells_positive; assumption.
Qed.
