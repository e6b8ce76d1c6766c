From Verif Require Import Prelude M_Par S_Par P_Par M_Scan S_Scan.

Lemma scan_loop_length {A V} (op : V -> V -> V) (tr : A -> V) l v : length (scan_loop op tr v l) = length l.
Proof. revert v; induction l as [|x l IH]; intros v; cbn; auto. Qed.

Lemma scan_length {A V} (op : V -> V -> V) (tr : A -> V) l :
  length (transform_inclusive_scan op tr l) = length l.
Proof. destruct l; cbn; auto. rewrite scan_loop_length. reflexivity. Qed.

Lemma scan_loop_nth {A V} (op : V -> V -> V) (tr : A -> V) l : forall v i, i < length l ->
  nth_error (scan_loop op tr v l) i = Some (fold_left op (map tr (firstn (S i) l)) v).
Proof.
  induction l as [|x l IH]; intros v i H; [cbn in H; lia|].
  destruct i as [|i]; [reflexivity|]. cbn [scan_loop nth_error]. cbn in H. rewrite IH by lia. reflexivity.
Qed.

Lemma scan_nth {A V} (op : V -> V -> V) (tr : A -> V) l i : i < length l ->
  nth_error (transform_inclusive_scan op tr l) i = total op (map tr (firstn (S i) l)).
Proof.
  destruct l as [|x l]; intros H; [cbn in H; lia|]. cbn [transform_inclusive_scan].
  destruct i as [|i]; [reflexivity|]. cbn [nth_error]. cbn in H. rewrite scan_loop_nth by lia. reflexivity.
Qed.

Lemma zsum_app l m : (zsum (l ++ m) = zsum l + zsum m)%Z.
Proof. unfold zsum. induction l; cbn [app fold_right]; lia. Qed.
Lemma fold_left_zsum l a : (fold_left Z.add l a = a + zsum l)%Z.
Proof. revert a; unfold zsum; induction l as [|x l IH]; intros a; cbn; [lia|]. rewrite IH. lia. Qed.
Lemma zsum_nonneg l : Forall (fun x => 0 <= x)%Z l -> (0 <= zsum l)%Z.
Proof. unfold zsum; induction 1; cbn; lia. Qed.

Lemma offset_scan_length a : zlen (offset_scan a) = (zlen a + 1)%Z.
Proof. unfold offset_scan. rewrite zlen_cons. unfold zlen, inclusive_scan. rewrite scan_length. reflexivity. Qed.

Lemma offset_scan_get a i : (0 <= i <= zlen a)%Z ->
  zget (offset_scan a) i = Ok (zsum (firstn (Z.to_nat i) a)).
Proof.
  intros H. unfold zlen in H. apply zget_ok. split; [lia|]. unfold offset_scan.
  destruct (Z.to_nat i) as [|k] eqn:E; [reflexivity|]. cbn [nth_error]. unfold inclusive_scan.
  rewrite scan_nth by lia. rewrite map_id. destruct a as [|x a]; [cbn in H; lia|].
  cbn [firstn total]. rewrite fold_left_zsum. reflexivity.
Qed.

Lemma fill_right_get a i : (0 <= i < zlen a)%Z ->
  exists v, zget (fill_right a) i = Ok v /\
    (forall j x, (0 <= j <= i)%Z -> zget a j = Ok x -> (x <= v)%Z) /\
    (exists j, (0 <= j <= i)%Z /\ zget a j = Ok v).
Proof.
  intros H. unfold zlen in H. unfold fill_right.
  assert (nth_error (transform_inclusive_scan Z.max (fun x => x) a) (Z.to_nat i) =
          total Z.max (firstn (S (Z.to_nat i)) a)) as E by (rewrite scan_nth by lia; rewrite map_id; reflexivity).
  destruct a as [|x a]; [cbn in H; lia|]. cbn [firstn total] in E.
  assert (forall l y, let v := fold_left Z.max l y in (y <= v)%Z /\ (forall z, In z l -> (z <= v)%Z) /\ (v = y \/ In v l)) as Hm.
  { clear. induction l as [|z l IH]; intros y; cbn.
    - split; [lia|]. split; [tauto|]. left; reflexivity.
    - destruct (IH (Z.max y z)) as (H1 & H2 & H3). cbn in *. split; [lia|]. split.
      + intros w [->|Hw]; [lia|auto].
      + destruct H3 as [H3|H3]; [|right; right; exact H3]. rewrite H3.
        destruct (Z.max_spec y z) as [[_ ->]|[_ ->]]; [right; left|left]; reflexivity. }
  specialize (Hm (firstn (Z.to_nat i) a) x). cbn in Hm. set (v := fold_left Z.max (firstn (Z.to_nat i) a) x) in *.
  destruct Hm as (H1 & H2 & H3). exists v. split; [apply zget_ok; split; [lia|exact E]|]. split.
  - intros j y Hj Hy. apply zget_ok in Hy as [Hj0 Hy]. destruct (Z.to_nat j) as [|k] eqn:Ek.
    + cbn in Hy. injection Hy as <-. exact H1.
    + cbn in Hy. apply H2. apply (nth_error_In _ k). rewrite <- Hy.
      rewrite <- (firstn_skipn (Z.to_nat i) a) at 2. rewrite nth_error_app1; [reflexivity|].
      rewrite firstn_length. assert (k < length a) by (apply nth_error_Some; congruence). lia.
  - destruct H3 as [H3|H3].
    + exists 0%Z. split; [lia|]. rewrite H3. reflexivity.
    + apply In_nth_error in H3 as (k & Hk). exists (Z.of_nat (S k)).
      assert (k < length (firstn (Z.to_nat i) a)) as Hkl by (apply nth_error_Some; congruence).
      rewrite firstn_length in Hkl. split; [lia|]. apply zget_nat. cbn.
      rewrite <- Hk. rewrite <- (firstn_skipn (Z.to_nat i) a) at 1. apply nth_error_app1. rewrite firstn_length. lia.
Qed.

(* ---------------- OpenMP ---------------- *)
Section omp.
Variables (V : Type) (op : V -> V -> V) (tr : V -> V).
Hypothesis op_assoc : forall x y z, op x (op y z) = op (op x y) z.

Definition oplus (a b : option V) : option V :=
  match a, b with
  | None, _ => b
  | _, None => a
  | Some x, Some y => Some (op x y)
  end.
Lemma oplus_assoc a b c : oplus a (oplus b c) = oplus (oplus a b) c.
Proof. destruct a, b, c; cbn; auto. rewrite op_assoc. reflexivity. Qed.

Lemma fold_left_op l : forall x y, fold_left op l (op x y) = op x (fold_left op l y).
Proof. induction l as [|z l IH]; intros x y; cbn; [reflexivity|]. rewrite <- op_assoc. apply IH. Qed.

Lemma total_cons x l : total op (x :: l) = oplus (Some x) (total op l).
Proof. destruct l as [|y l]; [reflexivity|]. cbn. rewrite fold_left_op. reflexivity. Qed.

Lemma total_app l m : total op (l ++ m) = oplus (total op l) (total op m).
Proof.
  induction l as [|x l IH]; [reflexivity|]. cbn [app]. rewrite !total_cons, IH. apply oplus_assoc.
Qed.

Variables (n nthreads : nat).
Hypothesis Hn : 0 < n.
Hypothesis HT : 0 < nthreads.
Notation b := (begin_i n nthreads).
Notation e := (end_i n nthreads).

Lemma begin_0 : b 0 = 0.
Proof. unfold begin_i. destruct (_ <? _) eqn:E; [apply Nat.ltb_lt in E; lia|lia]. Qed.
Lemma end_begin t : e t = b (S t).
Proof.
  unfold end_i, begin_i. generalize (quotient n nthreads) (remainder n nthreads). intros q r.
  destruct (Nat.leb_spec r t), (Nat.ltb_spec r t), (Nat.ltb_spec r (S t)); try lia; nia.
Qed.
Lemma begin_mono t t' : t <= t' -> b t <= b t'.
Proof.
  unfold begin_i. generalize (quotient n nthreads) (remainder n nthreads). intros q r H.
  destruct (Nat.ltb_spec r t), (Nat.ltb_spec r t'); nia.
Qed.
Lemma begin_T : b nthreads = n.
Proof.
  unfold begin_i, quotient, remainder. pose proof (Nat.div_mod n nthreads ltac:(lia)) as H.
  pose proof (Nat.mod_upper_bound n nthreads ltac:(lia)) as H'.
  destruct (Nat.ltb_spec (n mod nthreads) nthreads); [|lia]. rewrite Nat.mul_comm. lia.
Qed.
Lemma active_below t t' : t' <= t -> b t < e t -> b t' < e t'.
Proof.
  rewrite !end_begin. unfold begin_i. generalize (quotient n nthreads) (remainder n nthreads). intros q r H.
  destruct (Nat.ltb_spec r t), (Nat.ltb_spec r (S t)), (Nat.ltb_spec r t'), (Nat.ltb_spec r (S t')); nia.
Qed.
Lemma chunk_exists i : i < n -> exists t, t < nthreads /\ b t <= i < e t.
Proof.
  intros Hi. assert (forall k, k <= nthreads -> i < b k -> exists t, t < k /\ b t <= i < e t) as H.
  { induction k as [|k IH]; intros Hk Hb; [rewrite begin_0 in Hb; lia|].
    destruct (Nat.lt_ge_cases i (b k)) as [H|H].
    - destruct IH as (t & Ht & H'); [lia|exact H|]. exists t. split; [lia|exact H'].
    - exists k. split; [lia|]. rewrite end_begin. lia. }
  apply H; [lia|]. rewrite begin_T. exact Hi.
Qed.
Lemma chunk_unique i t t' : b t <= i < e t -> b t' <= i < e t' -> t = t'.
Proof.
  rewrite !end_begin. intros H H'. destruct (lt_eq_lt_dec t t') as [[Hlt| ->]|Hgt]; [|reflexivity|].
  - pose proof (begin_mono (S t) t' Hlt). lia.
  - pose proof (begin_mono (S t') t Hgt). lia.
Qed.

Variable R : nat.
Hypothesis HR : R = 0 \/ R = 2.

(* values of a range of the input *)
Definition vals (m : mem V) (is : list nat) : list V := map (fun i => tr (m (0, i))) is.

Lemma solo_rd_fold m g ls : forall acc k,
  solo m (rd_fold V op g acc ls k) = solo m (k (fold_left op (map (fun l => g (m l)) ls) acc)).
Proof. induction ls as [|l ls IH]; intros acc k; cbn; [reflexivity|]. apply IH. Qed.

Lemma confined_rd_fold I O g ls : forall acc k, (forall l, In l ls -> I l \/ O l) ->
  (forall v, confined I O (k v)) -> confined I O (rd_fold V op g acc ls k).
Proof.
  induction ls as [|l ls IH]; intros acc k H Hk; cbn; [apply Hk|].
  constructor; [apply H; left; reflexivity|]. intros v. apply IH; [|exact Hk]. intros; apply H; right; assumption.
Qed.

Lemma seq_chunk t : b t < e t -> seq (b t) (e t - b t) = b t :: seq (S (b t)) (e t - S (b t)).
Proof. intros H. replace (e t - b t) with (S (e t - S (b t))) by lia. reflexivity. Qed.

Lemma solo_phase1 m t : b t < e t ->
  Some (solo m (phase1 V op tr n nthreads t) (1, t)) = total op (vals m (seq (b t) (e t - b t))).
Proof.
  intros H. unfold phase1. rewrite (proj2 (Nat.ltb_lt _ _) H). cbn [solo]. rewrite solo_rd_fold. cbn [solo].
  rewrite upd_eq. rewrite seq_chunk by exact H. unfold vals. cbn [map total]. rewrite !map_map. reflexivity.
Qed.

Lemma phase1_conflict_free :
  conflict_free (fun l => fst l = 0) (fun t l => l = (1, t)) (map (phase1 V op tr n nthreads) (seq 0 nthreads)).
Proof.
  split; [|split].
  - intros t p Hp. rewrite nth_error_map in Hp.
    destruct (nth_error (seq 0 nthreads) t) as [t'|] eqn:E; [|discriminate].
    assert (t' = t) as ->.
    { assert (t < nthreads) by (rewrite <- (seq_length nthreads 0); apply nth_error_Some; congruence).
      rewrite (nth_error_nth' _ 0) in E by (rewrite seq_length; lia). rewrite seq_nth in E by lia. injection E. lia. }
    cbn in Hp. injection Hp as <-. unfold phase1. destruct (_ <? _); [|constructor].
    constructor; [left; reflexivity|]. intros v. apply confined_rd_fold.
    + intros l Hl. apply in_map_iff in Hl as (i & <- & _). left. reflexivity.
    + intros w. constructor; [reflexivity|constructor].
  - intros i j l -> E. congruence.
  - intros i l -> E. discriminate.
Qed.

Lemma par_result inputs own (m : mem V) ps s :
  conflict_free inputs own ps -> all_done (run (m, ps) s) ->
  (forall i p0, nth_error ps i = Some p0 -> forall l, own i l -> fst (run (m, ps) s) l = solo m p0 l) /\
  (forall l, (forall i, own i l -> length ps <= i) -> fst (run (m, ps) s) l = m l).
Proof.
  intros CF D. apply (done_mem V inputs own m ps); [|exact D].
  apply (Inv_run V inputs own m ps CF), (Inv_init V inputs own m ps CF).
Qed.

Lemma nth_seq_map {B} (f : nat -> B) t k : t < k -> nth_error (map f (seq 0 k)) t = Some (f t).
Proof.
  intros H. rewrite nth_error_map. rewrite (nth_error_nth' _ 0) by (rewrite seq_length; lia).
  rewrite seq_nth by lia. reflexivity.
Qed.

(* after phase 1 *)
Definition after1 (m0 m1 : mem V) : Prop :=
  (forall i, m1 (0, i) = m0 (0, i)) /\
  (forall t, t < nthreads -> b t < e t -> Some (m1 (1, t)) = total op (vals m0 (seq (b t) (e t - b t)))).

Lemma phase1_result m0 s :
  all_done (run (m0, map (phase1 V op tr n nthreads) (seq 0 nthreads)) s) ->
  after1 m0 (fst (run (m0, map (phase1 V op tr n nthreads) (seq 0 nthreads)) s)).
Proof.
  intros D. destruct (par_result _ _ _ _ _ phase1_conflict_free D) as [P1 P2]. split.
  - intros i. apply P2. intros t E. discriminate.
  - intros t Ht Ha. rewrite (P1 t (phase1 V op tr n nthreads t)); [|apply nth_seq_map, Ht|reflexivity].
    apply solo_phase1, Ha.
Qed.

Lemma vals_prefix m t : t <= nthreads ->
  vals m (seq 0 (b (S t))) = vals m (seq 0 (b t)) ++ vals m (seq (b t) (e t - b t)).
Proof.
  intros _. unfold vals. rewrite <- map_app. f_equal.
  rewrite end_begin. pose proof (begin_mono t (S t) ltac:(lia)).
  replace (b (S t)) with (b t + (b (S t) - b t)) at 1 by lia. rewrite seq_app. reflexivity.
Qed.

(* the running value with which an active thread starts *)
Lemma thread_start m0 m1 t : after1 m0 m1 -> t < nthreads -> b t < e t -> 0 < t ->
  Some (fold_left op (map (fun l => m1 l) (map (pair 1) (seq 1 (t - 1)))) (m1 (1, 0))) =
  total op (vals m0 (seq 0 (b t))).
Proof.
  intros [A0 A1] Ht Ha Hpos.
  assert (forall k, k <= t -> total op (map (fun l => m1 l) (map (pair 1) (seq 0 k))) = total op (vals m0 (seq 0 (b k)))) as H.
  { induction k as [|k IH]; intros Hk.
    - rewrite begin_0. reflexivity.
    - rewrite seq_S, !map_app, total_app. etransitivity; [exact (f_equal2 oplus (IH ltac:(lia)) eq_refl)|]. cbn [Nat.add map].
      rewrite vals_prefix by lia. rewrite total_app. f_equal.
      rewrite <- (A1 k); [reflexivity|lia|]. apply (active_below t); [lia|exact Ha]. }
  specialize (H t (Nat.le_refl t)). rewrite <- H.
  replace t with (S (t - 1)) at 2 by lia. reflexivity.
Qed.

Lemma solo_scan_cells len : forall m acc i0 m',
  (forall i, i0 <= i -> m (0, i) = m' (0, i)) ->
  (forall j, j < i0 -> solo m (scan_cells V op tr R acc (seq i0 len)) (R, j) = m (R, j)) /\
  (forall j, i0 <= j < i0 + len ->
    solo m (scan_cells V op tr R acc (seq i0 len)) (R, j) = fold_left op (vals m' (seq i0 (S j - i0))) acc).
Proof.
  induction len as [|len IH]; intros m acc i0 m' Hm.
  - split; [reflexivity|]. intros; lia.
  - cbn [seq scan_cells solo].
    set (acc' := op acc (tr (m (0, i0)))).
    destruct (IH (upd m (R, i0) acc') acc' (S i0) m') as [I1 I2].
    { intros i Hi. rewrite upd_ne by (intros E; injection E as _ E; lia). apply Hm. lia. }
    split.
    + intros j Hj. rewrite I1 by lia. apply upd_ne. intros E; injection E as E; lia.
    + intros j Hj. destruct (Nat.eq_dec j i0) as [->|Hne].
      * rewrite I1 by lia. rewrite upd_eq. replace (S i0 - i0) with 1 by lia. cbn. unfold acc'. rewrite Hm by lia. reflexivity.
      * rewrite I2 by lia. replace (S j - i0) with (S (S j - S i0)) by lia. cbn [seq vals map fold_left].
        unfold acc'. rewrite Hm by lia. reflexivity.
Qed.

Lemma confined_scan_cells I O is : forall acc,
  (forall i, In i is -> (I (0, i) \/ O (0, i)) /\ O (R, i)) -> confined I O (scan_cells V op tr R acc is).
Proof.
  induction is as [|i is IH]; intros acc H; cbn; [constructor|].
  destruct (H i (or_introl eq_refl)) as [H1 H2].
  constructor; [exact H1|]. intros v. constructor; [exact H2|]. apply IH. intros; apply H; right; assumption.
Qed.

Lemma phase2_conflict_free :
  conflict_free (fun l => fst l = 1 \/ (R = 2 /\ fst l = 0)) (fun t l => exists i, b t <= i < e t /\ l = (R, i))
    (map (phase2 V op tr n nthreads R) (seq 0 nthreads)).
Proof.
  split; [|split].
  - intros t p Hp. 
    assert (p = phase2 V op tr n nthreads R t) as ->.
    { assert (t < nthreads) by (rewrite <- (seq_length nthreads 0), <- (map_length (phase2 V op tr n nthreads R)); apply nth_error_Some; congruence).
      rewrite nth_seq_map in Hp by assumption. congruence. }
    unfold phase2. destruct (Nat.ltb_spec (b t) (e t)) as [Ha|]; [|constructor].
    assert (forall i, b t <= i < e t -> ((fst (0, i) = 1 \/ (R = 2 /\ fst (0, i) = 0)) \/ (exists i0, b t <= i0 < e t /\ (0, i) = (R, i0)))) as Hr.
    { intros i Hi. destruct HR as [E|E].
      - right. exists i. split; [exact Hi|]. rewrite E; reflexivity.
      - left. right. split; [exact E|reflexivity]. }
    assert (forall v, confined (fun l => fst l = 1 \/ (R = 2 /\ fst l = 0)) (fun l => exists i, b t <= i < e t /\ l = (R, i))
      (Wr (R, b t) v (scan_cells V op tr R v (seq (S (b t)) (e t - S (b t)))))) as Hrest.
    { intros v. constructor; [exists (b t); split; [lia|reflexivity]|].
      apply confined_scan_cells. intros i Hi. apply in_seq in Hi. split; [apply Hr; lia|].
      exists i. split; [lia|reflexivity]. }
    destruct (t =? 0).
    + constructor; [apply Hr; lia|]. intros v. apply Hrest.
    + constructor; [left; left; reflexivity|]. intros s0. apply confined_rd_fold.
      * intros l Hl. apply in_map_iff in Hl as (i & <- & _). left; left; reflexivity.
      * intros s. constructor; [apply Hr; lia|]. intros v. apply Hrest.
  - intros t t' l (i & Hi & ->) (i' & Hi' & E). injection E as <-. apply (chunk_unique i); assumption.
  - intros t l (i & Hi & ->). cbn. lia.
Qed.

Lemma phase2_result m0 m1 s :
  after1 m0 m1 ->
  all_done (run (m1, map (phase2 V op tr n nthreads R) (seq 0 nthreads)) s) ->
  forall i, i < n ->
  Some (fst (run (m1, map (phase2 V op tr n nthreads R) (seq 0 nthreads)) s) (R, i)) =
  total op (vals m0 (seq 0 (S i))).
Proof.
  intros Ha D i Hi. destruct (par_result _ _ _ _ _ phase2_conflict_free D) as [P1 _].
  destruct (chunk_exists i Hi) as (t & Ht & Hc).
  rewrite (P1 t (phase2 V op tr n nthreads R t)); [|apply nth_seq_map, Ht|exists i; split; [exact Hc|reflexivity]].
  pose proof Ha as Ha'. destruct Ha as [A0 A1]. unfold phase2.
  assert (b t < e t) as Hact by lia. rewrite (proj2 (Nat.ltb_lt _ _) Hact).
  set (x := m1 (0, b t)).
  assert (forall v, Some v = total op (vals m0 (seq 0 (S (b t)))) ->
    Some (solo m1 (Wr (R, b t) v (scan_cells V op tr R v (seq (S (b t)) (e t - S (b t))))) (R, i)) =
    total op (vals m0 (seq 0 (S i)))) as Hrest.
  { intros v Hv. cbn [solo].
    destruct (solo_scan_cells (e t - S (b t)) (upd m1 (R, b t) v) v (S (b t)) m0) as [S1 S2].
    { intros j Hj. rewrite upd_ne by (intros E; injection E as _ E; lia). apply A0. }
    destruct (Nat.eq_dec i (b t)) as [->|Hne].
    - rewrite S1 by lia. rewrite upd_eq. exact Hv.
    - rewrite S2 by lia. replace (S i) with (S (b t) + (S i - S (b t))) at 2 by lia.
      rewrite seq_app. unfold vals. rewrite map_app, total_app.
      change (map (fun i0 => tr (m0 (0, i0))) (seq 0 (S (b t)))) with (vals m0 (seq 0 (S (b t)))).
      rewrite <- Hv. cbn [Nat.add]. rewrite <- total_cons. reflexivity. }
  destruct (Nat.eqb_spec t 0) as [->|Hpos].
  - cbn [solo]. apply Hrest. rewrite A0, begin_0. reflexivity.
  - cbn [solo]. rewrite solo_rd_fold. cbn [solo]. apply Hrest.
    replace (S (b t)) with (b t + 1) by lia. rewrite seq_app. unfold vals. rewrite map_app, total_app.
    change (map (fun i0 => tr (m0 (0, i0))) (seq 0 (b t))) with (vals m0 (seq 0 (b t))).
    rewrite <- (thread_start m0 m1 t Ha' Ht Hact) by lia. cbn. unfold x. rewrite A0. reflexivity.
Qed.
End omp.

Lemma omp_scan_all V (op : V -> V -> V) tr (l : list V) nthreads R regions m0 s1 s2 :
  (forall x y z, op x (op y z) = op (op x y) z) ->
  0 < nthreads -> R = 0 \/ R = 2 -> l <> [] ->
  (forall i x, nth_error l i = Some x -> m0 (0, i) = x) ->
  omp_regions V op tr (length l) nthreads R = Ok regions ->
  all_done (run (m0, fst regions) s1) ->
  all_done (run (fst (run (m0, fst regions) s1), snd regions) s2) ->
  forall i v, nth_error (transform_inclusive_scan op tr l) i = Some v ->
  fst (run (fst (run (m0, fst regions) s1), snd regions) s2) (R, i) = v.
Proof.
  intros Hassoc HT HR Hl Hm Hreg D1 D2 i v Hv. unfold omp_regions in Hreg.
  destruct (existsb _ _); [discriminate|]. injection Hreg as <-. cbn [fst snd] in *.
  assert (0 < length l) as Hn by (destruct l; [contradiction|cbn; lia]).
  assert (i < length l) as Hi.
  { rewrite <- (scan_length op tr l). apply nth_error_Some. congruence. }
  pose proof (phase1_result V op tr (length l) nthreads Hn HT R HR m0 s1 D1) as A.
  pose proof (phase2_result V op tr Hassoc (length l) nthreads Hn HT R HR m0 _ s2 A D2 i Hi) as E.
  rewrite scan_nth in Hv by exact Hi. 
  assert (vals V tr m0 (seq 0 (S i)) = map tr (firstn (S i) l)) as Ev.
  { unfold vals. rewrite <- map_map with (f := fun i => m0 (0, i)). f_equal.
    apply list_eq_nth. intros k. rewrite nth_error_map.
    destruct (Nat.lt_ge_cases k (S i)) as [Hk|Hk].
    - rewrite (nth_error_nth' _ 0) by (rewrite seq_length; lia). rewrite seq_nth by lia. cbn [option_map Nat.add].
      destruct (nth_error l k) as [x|] eqn:Ex; [|apply nth_error_None in Ex; lia].
      rewrite (Hm k x Ex), nth_error_firstn_lt by lia. symmetry. exact Ex.
    - rewrite (proj2 (nth_error_None (seq 0 (S i)) k)) by (rewrite seq_length; lia). cbn [option_map]. symmetry. apply nth_error_None.
      rewrite firstn_length. lia. }
  rewrite Ev, Hv in E. injection E as E. exact E.
Qed.

Lemma omp_regions_ok V op tr n nthreads R : nthreads <= 512 \/ n <= 512 ->
  0 < nthreads -> exists r, omp_regions V op tr n nthreads R = Ok r.
Proof.
  intros H HT. unfold omp_regions. destruct (existsb _ _) eqn:E; [exfalso|eauto].
  apply existsb_exists in E as (t & Ht & E). unfold max_num_threads in Ht. apply in_seq in Ht. apply Nat.ltb_lt in E.
  assert (0 < n). { destruct n; [|lia]. unfold end_i, begin_i, quotient, remainder in E.
    rewrite Nat.div_0_l, Nat.mod_0_l in E by lia. cbn in E. destruct t; lia. }
  rewrite (end_begin n nthreads) in E by lia.
  (* all lower threads are active too, so n > 512 *)
  assert (forall k, k <= S t -> k <= begin_i n nthreads k) as Hk.
  { induction k as [|k IH]; intros Hk; [lia|]. specialize (IH ltac:(lia)).
    assert (begin_i n nthreads k < end_i n nthreads k); [|rewrite (end_begin n nthreads) in * by lia; lia].
    apply (active_below n nthreads) with t; try lia. rewrite (end_begin n nthreads) by lia. exact E. }
  specialize (Hk (S t) ltac:(lia)).
  assert (begin_i n nthreads (S t) <= begin_i n nthreads nthreads) by (apply begin_mono; lia).
  rewrite (begin_T n nthreads) in * by lia. lia.
Qed.

Lemma omp_513 V op tr R : omp_regions V op tr 513 513 R = UB.
Proof.
  unfold omp_regions. change (existsb _ _) with
    (existsb (fun t : nat => begin_i 513 513 t <? end_i 513 513 t) (seq 512 (513 - 512))).
  replace (existsb _ _) with true; [reflexivity|]. vm_compute. reflexivity.
Qed.
