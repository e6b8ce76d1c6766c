(** Proofs for C85. *)
From Coq Require Import Lia.
From Verif Require Import Prelude M_Array M_ArrayOps S_ArrayOps P_ArrayOps M_Map P_Array P_Map P_Map2 P_Align M_Graph S_Graph P_Graph P_Mark S_Scan M_Template P_Amr M_AmrTopo S_AmrTopo.
Local Open Scope Z_scope.

(** ** Loops that append blocks *)
Lemma zset_next (done : list Z) rest x : 1 <= zlen rest -> zset (map Some done ++ rest) (zlen done) (Some x) = Ok (map Some (done ++ [x]) ++ skipn 1 rest).
Proof.
  intros H. destruct rest as [|y rest]; [unfold zlen in H; cbn in H; lia|]. apply zset_ok. split.
  { rewrite zlen_app, zlen_map, zlen_cons. pose proof (zlen_nonneg done). pose proof (zlen_nonneg rest). lia. }
  unfold zlen. rewrite Nat2Z.id. cbn [skipn]. clear H. induction done as [|z done IH]; [reflexivity|]. cbn. f_equal. exact IH.
Qed.

Lemma skipn_skipn' {A} : forall a b (l : list A), skipn a (skipn b l) = skipn (b + a) l.
Proof. intros a b. revert a. induction b as [|b IH]; intros a l; [reflexivity|]. destruct l; [rewrite !skipn_nil; reflexivity|]. cbn. apply IH. Qed.
Lemma zlen_skipn {A} k (l : list A) : 0 <= k <= zlen l -> zlen (skipn (Z.to_nat k) l) = zlen l - k.
Proof. intros H. unfold zlen in *. rewrite skipn_length. lia. Qed.

Definition app_step (F : list (option Z) -> Z -> res (list (option Z))) (o k : Z) (block : Z -> res (list Z)) (i : Z) : Prop :=
  forall done rest, zlen done = o + i * k -> k <= zlen rest -> F (map Some done ++ rest) i = (b <- block i ;; Ok (map Some (done ++ b) ++ skipn (Z.to_nat k) rest)).

Lemma appending F o k block : 0 <= k -> forall n, 0 <= n -> (forall i b, 0 <= i < n -> block i = Ok b -> zlen b = k) -> (forall i, 0 <= i < n -> app_step F o k block i) ->
  forall done rest, zlen done = o -> n * k <= zlen rest ->
  forM n (map Some done ++ rest) F = (bs <- mapM block (zrange n) ;; Ok (map Some (done ++ concat bs) ++ skipn (Z.to_nat (n * k)) rest)).
Proof.
  intros Hk n Hn. pattern n. apply natlike_ind; [| |exact Hn]; clear n Hn.
  - intros _ _ done rest Hd Hr. cbn. rewrite app_nil_r. reflexivity.
  - intros n Hn IH HB HS done rest Hd Hr. unfold forM in *. unfold Z.succ. rewrite zrange_succ by exact Hn. rewrite foldM_app, mapM_app.
    rewrite IH; [|intros i b Hi; apply HB; lia|intros i Hi; apply HS; lia|exact Hd|nia].
    destruct (mapM block (zrange n)) as [bs| |] eqn:E; [|reflexivity..]. cbn [bind foldM mapM].
    assert (LC : zlen (concat bs) = n * k).
    { rewrite (zlen_concat k). - unfold zlen. rewrite (mapM_length _ _ _ E). rewrite zrange_length. rewrite Z2Nat.id by lia. reflexivity.
      - apply Forall_forall. intros b Hb. destruct (mapM_in_inv _ _ _ _ E Hb) as (i & Ei & Hi). apply in_zrange in Hi. apply (HB i); [lia|exact Ei]. }
    rewrite (HS n ltac:(lia)); [|rewrite zlen_app, LC, Hd; lia|rewrite zlen_skipn; nia].
    destruct (block n) as [b| |]; [|reflexivity..]. cbn [bind]. rewrite concat_app. cbn [concat]. rewrite app_nil_r, !app_assoc. f_equal. f_equal.
    rewrite skipn_skipn'. f_equal. nia.
Qed.

(** ** Blocks *)
Section blocks.
Variable r : refining.
Variable cd : Z.
Let nv := hypercube_degree cd 0.
Let n d := hypercube_split_degree d cd.
Definition bchild (d mod_ child : Z) : res (list Z) := mapM (refined_vert r d cd mod_ child) (zrange nv).
Definition bmod (d mod_ : Z) : res (list Z) := bs <- mapM (bchild d mod_) (zrange (n d)) ;; Ok (concat bs).
Definition bdim (d : Z) : res (list Z) := bs <- mapM (bmod d) (zrange (zlen (r_mods2midverts r d))) ;; Ok (concat bs).
Definition bsize (d : Z) : Z := zlen (r_mods2midverts r d) * n d * nv.

Lemma singles {A} (f : A -> res Z) l : (bs <- mapM (fun x => y <- f x ;; Ok [y]) l ;; Ok (concat bs)) = mapM f l.
Proof.
  induction l as [|x l IH]; [reflexivity|]. cbn [mapM]. destruct (f x) as [y| |]; [|reflexivity..]. cbn [bind]. rewrite <- IH. destruct (mapM _ l) as [bs| |]; reflexivity.
Qed.
Lemma bchild_len d m c b : 0 <= nv -> bchild d m c = Ok b -> zlen b = nv.
Proof. intros H E. unfold bchild in E. unfold zlen. rewrite (mapM_length _ _ _ E), zrange_length. lia. Qed.
Lemma blocks_rows (f : Z -> res (list Z)) k m bs : (forall i b, 0 <= i < m -> f i = Ok b -> zlen b = k) -> mapM f (zrange m) = Ok bs -> Forall (fun b => zlen b = k) bs.
Proof. intros H E. apply Forall_forall. intros b Hb. destruct (mapM_in_inv _ _ _ _ E Hb) as (i & Ei & Hi). apply in_zrange in Hi. exact (H i b Hi Ei). Qed.
Lemma blocks_len (f : Z -> res (list Z)) k m b : 0 <= m -> (forall i b, 0 <= i < m -> f i = Ok b -> zlen b = k) -> (bs <- mapM f (zrange m) ;; Ok (concat bs)) = Ok b -> zlen b = m * k.
Proof.
  intros Hm H E. apply bind_ok in E as (bs & Eb & E). injection E as <-. rewrite (zlen_concat k) by exact (blocks_rows f k m bs H Eb).
  unfold zlen at 1. rewrite (mapM_length _ _ _ Eb), zrange_length, Z2Nat.id by exact Hm. reflexivity.
Qed.
Lemma bmod_len d m b : 0 <= nv -> 0 <= n d -> bmod d m = Ok b -> zlen b = n d * nv.
Proof. intros H1 H2. apply blocks_len; [exact H2|]. intros i x _. apply bchild_len, H1. Qed.
Lemma bdim_len d b : 0 <= nv -> 0 <= n d -> bdim d = Ok b -> zlen b = bsize d.
Proof. intros H1 H2 E. unfold bsize. rewrite <- Z.mul_assoc. apply (blocks_len _ (n d * nv) _ b (zlen_nonneg _)) in E; [exact E|]. intros i x _. apply bmod_len; assumption. Qed.

Lemma dim_loop d done rest : 0 <= nv -> 0 <= n d -> bsize d <= zlen rest ->
  forM (zlen (r_mods2midverts r d)) (map Some done ++ rest) (fun w mod_ => forM (n d) w (fun w child => forM nv w (fun w vert =>
    midvert <- refined_vert r d cd mod_ child vert ;; zset w (zlen done + (mod_ * n d + child) * nv + vert) (Some midvert)))) =
  (b <- bdim d ;; Ok (map Some (done ++ b) ++ skipn (Z.to_nat (bsize d)) rest)).
Proof.
  intros Hv Hn HR. unfold bdim, bsize in *. rewrite <- Z.mul_assoc in *. rewrite (appending _ (zlen done) (n d * nv) (bmod d)); [|nia|apply zlen_nonneg|intros i b _; apply bmod_len; assumption| |reflexivity|exact HR].
  - destruct (mapM (bmod d) _) as [bs| |]; reflexivity.
  - intros m Hm done2 rest2 Hd2 Hr2. unfold bmod. rewrite (appending _ (zlen done2) nv (bchild d m)); [|exact Hv|exact Hn|intros i b _; apply bchild_len, Hv| |reflexivity|exact Hr2].
    + destruct (mapM (bchild d m) _) as [bs| |]; reflexivity.
    + intros c Hc done3 rest3 Hd3 Hr3. unfold bchild. rewrite <- singles. rewrite (appending _ (zlen done3) 1 (fun v => y <- refined_vert r d cd m c v ;; Ok [y])); [|lia|exact Hv| | |reflexivity|lia].
      * rewrite Z.mul_1_r. destruct (mapM _ (zrange nv)) as [bs| |]; reflexivity.
      * intros i b _ E. apply bind_ok in E as (y & _ & E). injection E as <-. reflexivity.
      * intros v Hvv done4 rest4 Hd4 Hr4. destruct (refined_vert r d cd m c v) as [y| |]; [|reflexivity..]. cbn [bind].
        replace (zlen done + (m * n d + c) * nv + v) with (zlen done4) by (rewrite Hd4, Hd3, Hd2; ring). apply zset_next. exact Hr4.
Qed.

Lemma dims_loop : 0 <= nv -> forall l, (forall d, In d l -> 0 <= n d) -> forall done rest, zsum (map bsize l) <= zlen rest ->
  foldM (fun (s : list (option Z) * Z) d =>
    let num_mods := zlen (r_mods2midverts r d) in
    let num_child_per_mod := hypercube_split_degree d cd in
    let offset := snd s in
    w <- forM num_mods (fst s) (fun w mod_ =>
      forM num_child_per_mod w (fun w child =>
        forM nv w (fun w vert =>
          midvert <- refined_vert r d cd mod_ child vert ;;
          zset w (offset + (mod_ * num_child_per_mod + child) * nv + vert) (Some midvert)))) ;;
    Ok (w, offset + num_mods * num_child_per_mod * nv)) l (map Some done ++ rest, zlen done) =
  (bs <- mapM bdim l ;; Ok (map Some (done ++ concat bs) ++ skipn (Z.to_nat (zsum (map bsize l))) rest, zlen done + zsum (map bsize l))).
Proof.
  intros Hv l. induction l as [|d l IH]; intros Hl done rest HR.
  - cbn. rewrite app_nil_r, Z.add_0_r. reflexivity.
  - assert (Hp : 0 <= zsum (map bsize l)).
    { clear - Hl Hv. induction l as [|a l IH]; [cbn; lia|]. change (zsum (map bsize (a :: l))) with (bsize a + zsum (map bsize l)). specialize (IH (fun d Hd => Hl d (match Hd with or_introl e => or_introl e | or_intror h => or_intror (or_intror h) end))).
      assert (0 <= n a) by (apply Hl; right; left; reflexivity). unfold bsize at 1. pose proof (zlen_nonneg (r_mods2midverts r a)). nia. }
    assert (Hd : 0 <= n d) by (apply Hl; left; reflexivity). assert (Hs : 0 <= bsize d) by (unfold bsize; pose proof (zlen_nonneg (r_mods2midverts r d)); nia).
    change (zsum (map bsize (d :: l))) with (bsize d + zsum (map bsize l)) in *. cbn [foldM mapM fst snd]. cbv zeta. change (hypercube_split_degree d cd) with (n d). rewrite dim_loop by (try assumption; lia).
    destruct (bdim d) as [b| |] eqn:E; [|reflexivity..]. cbn [bind]. pose proof (bdim_len d b Hv Hd E) as Lb. change (zlen (r_mods2midverts r d) * n d * nv) with (bsize d).
    replace (zlen done + bsize d) with (zlen (done ++ b)) by (rewrite zlen_app; lia). cbv zeta in IH. rewrite IH; [|intros x Hx; apply Hl; right; exact Hx|rewrite zlen_skipn; lia].
    destruct (mapM bdim l) as [bs| |]; [|reflexivity..]. cbn [bind concat]. rewrite <- !app_assoc, skipn_skipn', <- Z2Nat.inj_add, zlen_app by lia. do 2 f_equal. lia.
Qed.
End blocks.
