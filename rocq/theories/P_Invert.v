From Verif Require Import Prelude M_Array M_Par S_Par P_Par M_Scan S_Scan P_Scan M_Sort S_Sort M_Map S_Map S_Fan P_Array P_Map P_Map2 P_Sort P_SortSmall P_Fan.
Local Open Scope Z_scope.

(** * by sorting *)
Lemma strongly_zget {R : Z -> Z -> Prop} l i j x y : StronglySorted R l -> zget l i = Ok x -> zget l j = Ok y -> i < j -> R x y.
Proof.
  intros HS. revert i j. induction HS as [|h l HS IH F]; intros i j Hi Hj Hlt.
  - apply zget_bounds in Hi. cbn in Hi. lia.
  - destruct (Z.eq_dec i 0) as [->|Hi0].
    + cbn in Hi. injection Hi as <-. apply zget_ok in Hj as [_ Hj].
      replace (Z.to_nat j) with (S (Z.to_nat (j - 1))) in Hj by lia. cbn in Hj. apply nth_error_In in Hj.
      eapply Forall_forall in F; eauto.
    + pose proof (zget_bounds _ _ _ Hi).
      assert (forall k z, 0 < k -> zget (h :: l) k = Ok z -> zget l (k - 1) = Ok z) as Q.
      { intros k z Hk Hz. apply zget_ok in Hz as [_ Hz]. replace (Z.to_nat k) with (S (Z.to_nat (k - 1))) in Hz by lia.
        cbn in Hz. apply zget_ok. split; [lia|exact Hz]. }
      eapply (IH (i - 1) (j - 1)); [apply Q; [lia|exact Hi]|apply Q; [lia|exact Hj]|lia].
Qed.

Lemma Sorted_zget_le l : (forall i x y, zget l i = Ok x -> zget l (i + 1) = Ok y -> x <= y) -> Sorted Z.le l.
Proof.
  induction l as [|x l IH]; intros H; constructor.
  - apply IH. intros i y z Hy Hz. pose proof (zget_bounds _ _ _ Hy). apply (H (i + 1)).
    + apply zget_ok in Hy as [_ Hy]. apply zget_ok. split; [lia|]. replace (Z.to_nat (i + 1)) with (S (Z.to_nat i)) by lia. exact Hy.
    + apply zget_ok in Hz as [_ Hz]. apply zget_ok. split; [lia|]. replace (Z.to_nat (i + 1 + 1)) with (S (Z.to_nat (i + 1))) by lia. exact Hz.
  - destruct l as [|y l]; constructor. apply (H 0); reflexivity.
Qed.

Lemma tuple1 (l : list Z) i x : zget l i = Ok x -> tuple l 1 i = [x].
Proof.
  intros H. apply zget_ok in H as [Hi H]. unfold tuple. rewrite Z.mul_1_r. change (Z.to_nat 1) with 1%nat.
  revert H. generalize (Z.to_nat i). induction l as [|y l IH]; intros [|n] H; cbn in *; try discriminate; [congruence|auto].
Qed.

Lemma invert_map_by_sorting_spec a2b nb : 0 <= nb -> (forall b, In b a2b -> 0 <= b < nb) ->
  exists b2ba ba2a, invert_map_by_sorting a2b nb = Ok (b2ba, ba2a) /\ inverts a2b nb b2ba ba2a /\
  (forall b i j x y, in_group b2ba b i -> in_group b2ba b j -> i < j -> zget ba2a i = Ok x -> zget ba2a j = Ok y -> x < y).
Proof.
  intros Hnb Hr. unfold invert_map_by_sorting.
  destruct (sort_by_keys_spec a2b 1 (zlen a2b)) as (p & Ep & Lp & Pp & Sp); [lia|lia|]. rewrite Ep. cbn [bind].
  destruct (unmap_spec p a2b 1) as (q & Eq & Lq & Gq); [lia| |].
  { intros b Hb. apply (is_perm_in _ _ Pp) in Hb. lia. }
  rewrite Eq. cbn [bind].
  assert (forall i a, zget p i = Ok a -> zget q i = zget a2b a) as Gq'.
  { intros i a Ha. specialize (Gq i a 0 Ha ltac:(lia)). rewrite !Z.mul_1_r, !Z.add_0_r in Gq. exact Gq. }
  rewrite Z.mul_1_r in Lq.
  assert (forall i a, zget p i = Ok a -> exists b, zget a2b a = Ok b /\ zget q i = Ok b) as K.
  { intros i a Ha. destruct (zget_in_range a2b a) as (b & Hb).
    - apply zget_In in Ha. apply (is_perm_in _ _ Pp) in Ha. lia.
    - exists b. split; [exact Hb|]. rewrite (Gq' i a Ha). exact Hb. }
  assert (forall i j x y, zget p i = Ok x -> zget p j = Ok y -> i < j -> forall u v, zget a2b x = Ok u -> zget a2b y = Ok v -> u < v \/ (u = v /\ x < y)) as HS.
  { intros i j x y Hx Hy Hij u v Hu Hv. pose proof (strongly_zget p i j x y Sp Hx Hy Hij) as H. unfold stably_before in H.
    rewrite (tuple1 _ _ _ Hu), (tuple1 _ _ _ Hv) in H. cbn in H. destruct H as [[H|[_ []]]|[H1 H2]]; [left; exact H|right].
    injection H1 as ->. auto. }
  destruct (invert_funnel_spec q nb Hnb) as (f & Ef & Lf & Ff & Lastf & Gf).
  - apply Sorted_zget_le. intros i x y Hx Hy. pose proof (zget_bounds _ _ _ Hx). pose proof (zget_bounds _ _ _ Hy).
    destruct (zget_in_range p i) as (u & Hu); [lia|]. destruct (zget_in_range p (i + 1)) as (v & Hv); [lia|].
    rewrite (Gq' i u Hu) in Hx. rewrite (Gq' (i + 1) v Hv) in Hy. destruct (HS i (i + 1) u v Hu Hv ltac:(lia) x y Hx Hy) as [?|[? _]]; lia.
  - intros b Hb. apply In_zget in Hb as (i & Hi). pose proof (zget_bounds _ _ _ Hi). destruct (zget_in_range p i) as (u & Hu); [lia|].
    rewrite (Gq' i u Hu) in Hi. apply Hr. eapply zget_In; eauto.
  - rewrite Ef. cbn [bind]. exists f, p. split; [reflexivity|].
    assert (forall b i, in_group f b i <-> exists a, zget p i = Ok a /\ zget a2b a = Ok b) as GG.
    { intros b i. rewrite Gf. split.
      - intros Hi. pose proof (zget_bounds _ _ _ Hi). destruct (zget_in_range p i) as (a & Ha); [lia|]. exists a. split; [exact Ha|].
        rewrite <- (Gq' i a Ha). exact Hi.
      - intros (a & Ha & Hb). rewrite (Gq' i a Ha). exact Hb. }
    split.
    + split; [exact Ff|]. split; [exact Lf|]. split; [|split; [exact Lp|split; [exact Pp|exact GG]]].
      unfold last_of in Lastf. rewrite Lf in Lastf. replace (nb + 1 - 1) with nb in Lastf by lia. rewrite Lastf, Lq, Lp. reflexivity.
    + intros b i j x y Hi Hj Hij Hx Hy. apply GG in Hi as (a & Ha & Hb). apply GG in Hj as (a' & Ha' & Hb').
      assert (a = x) as -> by congruence. assert (a' = y) as -> by congruence.
      destruct (HS i j x y Hx Hy Hij b b Hb Hb') as [?|[_ ?]]; lia.
Qed.

(** * by atomics *)
Lemma finished_done c : finished c = true <-> all_done c.
Proof.
  unfold finished, all_done. rewrite forallb_forall, Forall_forall. split; intros H p Hp; specialize (H p Hp).
  - destruct p; try discriminate. reflexivity.
  - rewrite H. reflexivity.
Qed.

Lemma run_inv {V} (I : mem V * list (prog V) -> Prop) : (forall c i, I c -> I (step c i)) -> forall s c, I c -> I (run c s).
Proof. intros H s. unfold run. induction s as [|i s IH]; intros c Hc; cbn; auto. Qed.

Lemma filter_flip {A} (P Q : A -> bool) l x : NoDup l -> In x l -> P x = false -> Q x = true ->
  (forall y, y <> x -> P y = Q y) -> length (filter Q l) = S (length (filter P l)).
Proof.
  intros Hn. induction Hn as [|y l Hy Hn IH]; intros Hi HP HQ He; [destruct Hi|]. cbn.
  assert (forall l, ~ In x l -> filter P l = filter Q l) as K.
  { clear -He. induction l as [|z l IH]; intros H; [reflexivity|]. cbn. rewrite (He z) by (intros ->; apply H; left; reflexivity).
    rewrite IH by (intros C; apply H; right; exact C). reflexivity. }
  destruct Hi as [->|Hi].
  - rewrite HP, HQ. cbn. rewrite (K l Hy). reflexivity.
  - rewrite <- (He y) by (intros ->; contradiction). destruct (P y); cbn; rewrite (IH Hi HP HQ He); reflexivity.
Qed.
Lemma filter_same {A} (P Q : A -> bool) l : (forall y, In y l -> P y = Q y) -> filter P l = filter Q l.
Proof. induction l as [|x l IH]; intros H; [reflexivity|]. cbn. rewrite H by (left; reflexivity). rewrite IH by (intros; apply H; right; assumption). reflexivity. Qed.

Lemma nth_seq_map {A} (g : nat -> A) k a : (a < k)%nat -> nth_error (map g (seq 0 k)) a = Some (g a).
Proof. intros H. rewrite nth_error_map, nth_error_nth' with (d := 0%nat) by (rewrite seq_length; exact H). rewrite seq_nth by exact H. reflexivity. Qed.

Section atomics.
Variables (a2b : list Z) (nb : Z).
Hypothesis Hnb : 0 <= nb.
Hypothesis Hr : forall b, In b a2b -> 0 <= b < nb.
Let n := length a2b.

Definition tg (a : nat) : nat := Z.to_nat (nth a a2b 0).
Lemma tg_get a : (a < n)%nat -> zget a2b (Z.of_nat a) = Ok (Z.of_nat (tg a)) /\ (tg a < Z.to_nat nb)%nat.
Proof.
  intros H. unfold tg. assert (nth_error a2b a = Some (nth a a2b 0)) as E by (apply nth_error_nth'; exact H).
  pose proof (Hr _ (nth_error_In _ _ E)). split; [|lia]. rewrite Z2Nat.id by lia. apply zget_nat, E.
Qed.

(** threads of [S] with target [b] *)
Definition num (S : nat -> bool) (b : nat) : Z := Z.of_nat (length (filter (fun a => (S a && (tg a =? b)%nat)%bool) (seq 0 n))).

Lemma num_flip S S' a b : (a < n)%nat -> S a = false -> S' a = true -> (forall x, x <> a -> S x = S' x) ->
  num S' b = if (tg a =? b)%nat then num S b + 1 else num S b.
Proof.
  intros Ha H1 H2 He. unfold num. destruct (Nat.eqb_spec (tg a) b) as [<-|Hne].
  - rewrite (filter_flip (fun x => (S x && (tg x =? tg a)%nat)%bool) (fun x => (S' x && (tg x =? tg a)%nat)%bool) (seq 0 n) a).
    + lia.
    + apply seq_NoDup.
    + apply in_seq. lia.
    + rewrite H1. reflexivity.
    + rewrite H2, Nat.eqb_refl. reflexivity.
    + intros y Hy. rewrite (He y Hy). reflexivity.
  - f_equal. f_equal. apply filter_same. intros y _. destruct (Nat.eq_dec y a) as [->|Hy].
    + rewrite (proj2 (Nat.eqb_neq _ _) Hne). rewrite !andb_false_r. reflexivity.
    + rewrite (He y Hy). reflexivity.
Qed.
Lemma num_none S b : (forall a, (a < n)%nat -> S a = false) -> num S b = 0.
Proof.
  intros H. unfold num. replace (filter _ _) with (@nil nat); [reflexivity|]. symmetry.
  assert (forall l, (forall a, In a l -> (a < n)%nat) -> filter (fun a => (S a && (tg a =? b)%nat)%bool) l = []) as K.
  { induction l as [|x l IH]; intros Hl; [reflexivity|]. cbn. rewrite H by (apply Hl; left; reflexivity). cbn.
    apply IH. intros; apply Hl; right; assumption. }
  apply K. intros a Ha. apply in_seq in Ha. lia.
Qed.
Lemma num_all S b : (forall a, (a < n)%nat -> S a = true) -> num S b = count (fun y => y =? Z.of_nat b) a2b.
Proof.
  intros H. unfold num, count, zlen.
  assert (forall k l, (k + length l)%nat = n -> skipn k a2b = l ->
    length (filter (fun a => (S a && (tg a =? b)%nat)%bool) (seq k (length l))) = length (filter (fun y => y =? Z.of_nat b) l)) as K.
  { intros k l. revert k. induction l as [|x l IH]; intros k Hk Hs; [reflexivity|]. cbn [length seq filter].
    assert (nth_error a2b k = Some x) as E.
    { pose proof (nth_error_skipn a2b k 0) as E. rewrite Hs, Nat.add_0_r in E. symmetry. exact E. }
    cbn [length] in Hk. rewrite H by lia. cbn [andb]. unfold tg at 1. rewrite (nth_error_nth _ _ 0 E).
    pose proof (Hr x (nth_error_In _ _ E)).
    assert (skipn (Datatypes.S k) a2b = l) as Hs'.
    { clear -Hs. revert k Hs. induction a2b as [|y m IHm]; intros [|k] Hs; cbn in *; try discriminate; [congruence|]. apply IHm, Hs. }
    specialize (IH (Datatypes.S k) ltac:(lia) Hs').
    destruct (Nat.eqb_spec (Z.to_nat x) b), (Z.eqb_spec x (Z.of_nat b)); try lia; cbn [length]; rewrite IH; reflexivity. }
  f_equal. apply (K 0%nat a2b); reflexivity.
Qed.

(** ** counting *)
Definition CI (m0 : mem Z) (c : mem Z * list (prog Z)) : Prop :=
  length (snd c) = n /\ exists S : nat -> bool,
  (forall a, (a < n)%nat -> nth_error (snd c) a = Some (if S a then Done else Rmw (0%nat, tg a) (fun d => d + 1) (fun _ => Done))) /\
  (forall b, (b < Z.to_nat nb)%nat -> fst c (0%nat, b) = num S b) /\
  (forall l, ~ (fst l = 0%nat /\ (snd l < Z.to_nat nb)%nat) -> fst c l = m0 l).

Lemma nth_error_list_set {A} (l : list A) i v k : (i < length l)%nat ->
  nth_error (list_set l i v) k = if (k =? i)%nat then Some v else nth_error l k.
Proof.
  intros H. destruct (Nat.eqb_spec k i) as [->|Hne]; [apply list_set_nth_eq, H|apply list_set_nth_ne; lia].
Qed.

Lemma CI_step m0 c i : CI m0 c -> CI m0 (step c i).
Proof.
  destruct c as [m ps]. intros (L & S & H1 & H2 & H3). cbn [fst snd] in *. unfold step. cbn [fst snd].
  destruct (nth_error ps i) as [p|] eqn:E; [|split; [exact L|exists S; auto]].
  assert (i < n)%nat as Hi by (rewrite <- L; apply nth_error_Some; congruence).
  pose proof (H1 i Hi) as Ep. rewrite E in Ep. injection Ep as ->.
  destruct (S i) eqn:Si; cbn [step1 fst snd].
  - split; [cbn [snd]; rewrite list_set_length; exact L|]. exists S. split; [|auto]. intros a Ha. cbn [snd].
    rewrite nth_error_list_set by lia. destruct (Nat.eqb_spec a i) as [->|]; [rewrite Si; reflexivity|apply H1, Ha].
  - split; [cbn [snd]; rewrite list_set_length; exact L|].
    exists (fun a => if (a =? i)%nat then true else S a). cbn [fst snd]. split; [|split].
    + intros a Ha. rewrite nth_error_list_set by lia. destruct (Nat.eqb_spec a i) as [->|]; [reflexivity|apply H1, Ha].
    + intros b Hb. rewrite (num_flip S _ i b Hi Si).
      * unfold upd, loc_eqb. cbn [fst snd Nat.eqb andb]. destruct (Nat.eqb_spec (tg i) b) as [<-|]; rewrite H2 by lia; reflexivity.
      * rewrite Nat.eqb_refl. reflexivity.
      * intros x Hx. rewrite (proj2 (Nat.eqb_neq _ _) Hx). reflexivity.
    + intros [k j] Hl. unfold upd, loc_eqb. cbn [fst snd] in *. destruct (tg_get i Hi) as [_ Ht].
      destruct (Nat.eqb_spec 0 k) as [<-|]; [destruct (Nat.eqb_spec (tg i) j) as [<-|]|]; cbn [andb]; [exfalso; apply Hl; auto|apply (H3 (_, _)), Hl..].
Qed.

Lemma count_kernels : exists k1, mapM (count_kernel a2b) (zrange (zlen a2b)) = Ok k1 /\ length k1 = n /\
  forall a, (a < n)%nat -> nth_error k1 a = Some (Rmw (0%nat, tg a) (fun d => d + 1) (fun _ => Done)).
Proof.
  exists (map (fun a => Rmw (0%nat, tg (Z.to_nat a)) (fun d => d + 1) (fun _ => Done)) (zrange (zlen a2b))). split; [|split].
  - apply mapM_map_ok. intros x Hx. apply in_zrange in Hx. unfold count_kernel.
    destruct (tg_get (Z.to_nat x)) as [E _]; [unfold n, zlen in *; lia|]. rewrite Z2Nat.id in E by lia. rewrite E. cbn [bind].
    rewrite Nat2Z.id. reflexivity.
  - rewrite map_length. apply zrange_len_eq.
  - intros a Ha. rewrite nth_error_map, zrange_nth by (unfold zlen; fold n; lia). cbn. rewrite Nat2Z.id. reflexivity.
Qed.

Lemma zeroed_eq m k b N : (b < Z.to_nat N)%nat -> zeroed m k N (k, b) = 0.
Proof. intros H. unfold zeroed. cbn [fst snd]. rewrite Nat.eqb_refl. destruct (Z.ltb_spec (Z.of_nat b) N); [reflexivity|lia]. Qed.
Lemma zeroed_ne m k N l : ~ (fst l = k /\ (snd l < Z.to_nat N)%nat) -> zeroed m k N l = m l.
Proof.
  intros H. unfold zeroed. destruct (Nat.eqb_spec (fst l) k), (Z.ltb_spec (Z.of_nat (snd l)) N); try reflexivity.
  exfalso. apply H. split; [assumption|lia].
Qed.

Lemma count_result m0 k1 s1 : mapM (count_kernel a2b) (zrange (zlen a2b)) = Ok k1 ->
  let c1 := run (zeroed m0 0%nat nb, k1) s1 in finished c1 = true ->
  (forall b, (b < Z.to_nat nb)%nat -> fst c1 (0%nat, b) = count (fun y => y =? Z.of_nat b) a2b) /\
  (forall l, ~ (fst l = 0%nat /\ (snd l < Z.to_nat nb)%nat) -> fst c1 l = m0 l).
Proof.
  intros E c1 Hf. destruct count_kernels as (k1' & E' & L1 & G1). assert (k1' = k1) as -> by congruence.
  assert (CI m0 c1) as (L & S & H1 & H2 & H3).
  { unfold c1. apply run_inv; [intros; apply CI_step; assumption|]. split; [exact L1|]. exists (fun _ => false). cbn [fst snd]. split; [exact G1|]. split.
    - intros b Hb. rewrite zeroed_eq by exact Hb. symmetry. apply num_none. reflexivity.
    - intros l Hl. apply zeroed_ne, Hl. }
  split; [|exact H3]. intros b Hb. rewrite H2 by exact Hb. apply num_all. intros a Ha.
  apply finished_done in Hf. unfold all_done in Hf. rewrite Forall_forall in Hf.
  pose proof (H1 a Ha) as E1. pose proof (Hf _ (nth_error_In _ _ E1)) as E2. destruct (S a); [reflexivity|discriminate].
Qed.

(** ** filling *)
Variable f : list Z.          (* the offsets *)
Definition deg (b : nat) : Z := count (fun y => y =? Z.of_nat b) a2b.
Hypothesis f_len : zlen f = nb + 1.
Hypothesis f_fan : is_fan f.
Hypothesis f_step : forall b, (b < Z.to_nat nb)%nat -> exists lo, zget f (Z.of_nat b) = Ok lo /\ zget f (Z.of_nat b + 1) = Ok (lo + deg b).
Hypothesis f_last : zget f nb = Ok (zlen a2b).

Definition fst_of (b : nat) : Z := nth b f 0.
Lemma fst_get b : (b < Z.to_nat nb)%nat -> zget f (Z.of_nat b) = Ok (fst_of b) /\ zget f (Z.of_nat b + 1) = Ok (fst_of b + deg b) /\ 0 <= fst_of b.
Proof.
  intros H. destruct (f_step b H) as (lo & E1 & E2). assert (fst_of b = lo) as ->.
  { unfold fst_of. apply zget_ok in E1 as [_ E1]. rewrite Nat2Z.id in E1. apply nth_error_nth, E1. }
  split; [exact E1|]. split; [exact E2|]. eapply fan_nonneg; eauto.
Qed.

(** slot [j] was handed to a thread: what the thread still has to do *)
Definition fill0 (a : nat) : prog Z :=
  Rmw (1%nat, tg a) (fun d => d + 1) (fun j => Wr (2%nat, Z.to_nat (fst_of (tg a) + j)) (Z.of_nat a) Done).
Definition started (sl : nat -> option Z) (a : nat) : bool := match sl a with Some _ => true | None => false end.

Definition FI (m1 : mem Z) (c : mem Z * list (prog Z)) : Prop :=
  length (snd c) = n /\ exists sl : nat -> option Z,
  (forall a, (a < n)%nat -> match sl a with
     | None => nth_error (snd c) a = Some (fill0 a)
     | Some j => 0 <= j < num (started sl) (tg a) /\
         (nth_error (snd c) a = Some (Wr (2%nat, Z.to_nat (fst_of (tg a) + j)) (Z.of_nat a) Done) \/
          (nth_error (snd c) a = Some Done /\ fst c (2%nat, Z.to_nat (fst_of (tg a) + j)) = Z.of_nat a))
     end) /\
  (forall a a' j, (a < n)%nat -> (a' < n)%nat -> sl a = Some j -> sl a' = Some j -> tg a = tg a' -> a = a') /\
  (forall b, (b < Z.to_nat nb)%nat -> fst c (1%nat, b) = num (started sl) b) /\
  (forall l, ~ (fst l = 1%nat /\ (snd l < Z.to_nat nb)%nat) -> ~ (fst l = 2%nat /\ (snd l < n)%nat) -> fst c l = m1 l).

Lemma num_le S b : num S b <= deg b.
Proof.
  unfold deg. rewrite <- (num_all (fun _ => true)) by reflexivity. unfold num.
  assert (forall l, (length (filter (fun a => S a && (tg a =? b)%nat)%bool l) <= length (filter (fun a => true && (tg a =? b)%nat)%bool l))%nat) as K.
  { intros l. induction l as [|x l IH]; [cbn; lia|]. cbn [filter andb] in *. destruct (S x); cbn [andb]; destruct (tg x =? b)%nat; cbn [length]; lia. }
  specialize (K (seq 0 n)). lia.
Qed.

Lemma slot_group a j : (a < n)%nat -> 0 <= j < deg (tg a) -> in_group f (Z.of_nat (tg a)) (fst_of (tg a) + j).
Proof.
  intros Ha Hj. destruct (tg_get a Ha) as [_ Ht]. destruct (fst_get _ Ht) as (E1 & E2 & _). eexists _, _. split; [exact E1|]. split; [exact E2|lia].
Qed.
Lemma last_f : last_of f = Ok (zlen a2b).
Proof. unfold last_of. rewrite f_len. replace (nb + 1 - 1) with nb by lia. exact f_last. Qed.
Lemma slot_range a j : (a < n)%nat -> 0 <= j < deg (tg a) -> 0 <= fst_of (tg a) + j < Z.of_nat n.
Proof. intros Ha Hj. apply (in_group_range f _ _ _ f_fan last_f (slot_group a j Ha Hj)). Qed.
Lemma slot_inj a a' j j' : (a < n)%nat -> (a' < n)%nat -> 0 <= j < deg (tg a) -> 0 <= j' < deg (tg a') ->
  fst_of (tg a) + j = fst_of (tg a') + j' -> tg a = tg a' /\ j = j'.
Proof.
  intros Ha Ha' Hj Hj' E. pose proof (slot_group a j Ha Hj) as G1. pose proof (slot_group a' j' Ha' Hj') as G2. rewrite <- E in G2.
  pose proof (in_group_unique f _ _ _ f_fan G1 G2) as Ht. apply Nat2Z.inj in Ht. rewrite Ht in E. split; [exact Ht|lia].
Qed.

Lemma FI_step m1 c i : FI m1 c -> FI m1 (step c i).
Proof.
  destruct c as [m ps]. intros (L & sl & H1 & H2 & H3 & H4). cbn [fst snd] in *. unfold step. cbn [fst snd].
  destruct (nth_error ps i) as [p|] eqn:E; [|split; [exact L|exists sl; auto]].
  assert (i < n)%nat as Hi by (rewrite <- L; apply nth_error_Some; congruence). destruct (tg_get i Hi) as [_ Hti].
  pose proof (H1 i Hi) as Hsi. destruct (sl i) as [j|] eqn:Si.
  - destruct Hsi as [Hj [Ep|[Ep Em]]]; rewrite E in Ep; injection Ep as ->; cbn [step1].
    + (* the write *)
      pose proof (num_le (started sl) (tg i)) as Hle. pose proof (slot_range i j Hi ltac:(lia)) as Hsr.
      split; [cbn [snd]; rewrite list_set_length; exact L|]. exists sl. cbn [fst snd]. split; [|split; [exact H2|split]].
      * intros a Ha. pose proof (H1 a Ha) as Hsa. rewrite nth_error_list_set by lia. destruct (Nat.eqb_spec a i) as [->|Hne].
        -- rewrite Si. split; [exact Hj|]. right. split; [reflexivity|]. unfold upd, loc_eqb. cbn [fst snd]. rewrite !Nat.eqb_refl. reflexivity.
        -- destruct (sl a) as [j'|] eqn:Sa; [|exact Hsa]. destruct Hsa as [Hj' Hsa]. split; [exact Hj'|].
           destruct Hsa as [Hsa|[Hsa Hm]]; [left; exact Hsa|right; split; [exact Hsa|]].
           unfold upd, loc_eqb. cbn [fst snd]. destruct (Nat.eqb_spec (Z.to_nat (fst_of (tg i) + j)) (Z.to_nat (fst_of (tg a) + j'))) as [Hs|Hs].
           ++ exfalso. apply Hne. pose proof (num_le (started sl) (tg a)). pose proof (slot_range a j' Ha ltac:(lia)).
              destruct (slot_inj a i j' j Ha Hi) as [Ht Hjj]; [lia|lia|lia|]. subst j'. eapply H2; eauto.
           ++ rewrite andb_false_r. exact Hm.
      * intros b Hb. unfold upd, loc_eqb. cbn [fst snd Nat.eqb andb]. apply H3, Hb.
      * intros [k q] Hl1 Hl2. unfold upd, loc_eqb. cbn [fst snd] in *.
        destruct (Nat.eqb_spec 2 k) as [<-|]; [destruct (Nat.eqb_spec (Z.to_nat (fst_of (tg i) + j)) q) as [<-|]|]; cbn [andb]; [exfalso; apply Hl2; split; [reflexivity|lia]|apply (H4 (_, _)); assumption..].
    + (* already done *)
      split; [cbn [snd]; rewrite list_set_length; exact L|]. exists sl. cbn [fst snd]. split; [|auto].
      intros a Ha. pose proof (H1 a Ha) as Hsa. rewrite nth_error_list_set by lia. destruct (Nat.eqb_spec a i) as [->|Hne]; [|exact Hsa].
      rewrite Si. split; [exact Hj|]. right. split; [reflexivity|exact Em].
  - (* the atomic increment *)
    rewrite E in Hsi. injection Hsi as ->. cbn [fill0 step1].
    set (j := m (1%nat, tg i)). assert (j = num (started sl) (tg i)) as Ej by (apply H3, Hti).
    set (sl' := fun a => if (a =? i)%nat then Some j else sl a).
    assert (forall b, num (started sl') b = if (tg i =? b)%nat then num (started sl) b + 1 else num (started sl) b) as Hnum.
    { intros b. apply num_flip; [exact Hi|unfold started; rewrite Si; reflexivity|unfold started, sl'; rewrite Nat.eqb_refl; reflexivity|].
      intros x Hx. unfold started, sl'. rewrite (proj2 (Nat.eqb_neq _ _) Hx). reflexivity. }
    split; [cbn [snd]; rewrite list_set_length; exact L|]. exists sl'. cbn [fst snd]. split; [|split; [|split]].
    + intros a Ha. pose proof (H1 a Ha) as Hsa. rewrite nth_error_list_set by lia. unfold sl' at 1. rewrite Hnum.
      destruct (Nat.eqb_spec a i) as [->|Hne].
      * rewrite Nat.eqb_refl. split; [assert (0 <= num (started sl) (tg i)) by (unfold num; lia); lia|]. left. reflexivity.
      * destruct (sl a) as [j'|]; [|exact Hsa]. destruct Hsa as [Hj' Hsa]. split; [destruct (tg i =? tg a)%nat; lia|].
        destruct Hsa as [Hsa|[Hsa Hm]]; [left; exact Hsa|right; split; [exact Hsa|]]. unfold upd, loc_eqb. cbn [fst snd Nat.eqb andb]. exact Hm.
    + intros a a' q Ha Ha' Hq Hq' Ht. unfold sl' in Hq, Hq'.
      destruct (Nat.eqb_spec a i) as [->|Hne], (Nat.eqb_spec a' i) as [->|Hne']; [reflexivity| | |eapply H2; eauto].
      * exfalso. injection Hq as <-. pose proof (H1 a' Ha') as Hs. rewrite Hq' in Hs. rewrite <- Ht in Hs. lia.
      * exfalso. injection Hq' as <-. pose proof (H1 a Ha) as Hs. rewrite Hq in Hs. rewrite Ht in Hs. lia.
    + intros b Hb. rewrite Hnum. unfold upd, loc_eqb. cbn [fst snd Nat.eqb andb]. destruct (Nat.eqb_spec (tg i) b) as [<-|]; [|apply H3, Hb].
      fold j. rewrite Ej. reflexivity.
    + intros [k q] Hl1 Hl2. unfold upd, loc_eqb. cbn [fst snd] in *.
      destruct (Nat.eqb_spec 1 k) as [<-|]; [destruct (Nat.eqb_spec (tg i) q) as [<-|]|]; cbn [andb]; [exfalso; apply Hl1; auto|apply (H4 (_, _)); assumption..].
Qed.

Lemma fill_kernels : exists k2, mapM (fill_kernel a2b f) (zrange (zlen a2b)) = Ok k2 /\ length k2 = n /\
  forall a, (a < n)%nat -> nth_error k2 a = Some (fill0 a).
Proof.
  exists (map (fun a => fill0 (Z.to_nat a)) (zrange (zlen a2b))). split; [|split].
  - apply mapM_map_ok. intros x Hx. apply in_zrange in Hx. unfold fill_kernel.
    destruct (tg_get (Z.to_nat x)) as [E Ht]; [unfold n, zlen in *; lia|]. rewrite Z2Nat.id in E by lia. rewrite E. cbn [bind].
    destruct (fst_get _ Ht) as (E1 & _). rewrite E1. cbn [bind]. rewrite Nat2Z.id. unfold fill0. rewrite Z2Nat.id by lia. reflexivity.
  - rewrite map_length. apply zrange_len_eq.
  - intros a Ha. rewrite nth_error_map, zrange_nth by (unfold zlen; fold n; lia). cbn. rewrite Nat2Z.id. reflexivity.
Qed.

Lemma zget_array_of (m : mem Z) k N i : 0 <= i < N -> zget (array_of m k N) i = Ok (m (k, Z.to_nat i)).
Proof. intros H. unfold array_of. rewrite zget_map, zget_zrange by exact H. reflexivity. Qed.
Lemma zlen_array_of (m : mem Z) k N : 0 <= N -> zlen (array_of m k N) = N.
Proof. intros H. unfold array_of. rewrite zlen_map, zlen_zrange by exact H. reflexivity. Qed.

Lemma fill_result m1 k2 s2 : mapM (fill_kernel a2b f) (zrange (zlen a2b)) = Ok k2 ->
  let c2 := run (zeroed m1 1%nat nb, k2) s2 in finished c2 = true ->
  inverts a2b nb f (array_of (fst c2) 2%nat (zlen a2b)) /\
  (forall l, ~ (fst l = 1%nat /\ (snd l < Z.to_nat nb)%nat) -> ~ (fst l = 2%nat /\ (snd l < n)%nat) -> fst c2 l = m1 l).
Proof.
  intros E c2 Hf. destruct fill_kernels as (k2' & E' & L2 & G2). assert (k2' = k2) as -> by congruence.
  assert (FI m1 c2) as (L & sl & H1 & H2 & H3 & H4).
  { unfold c2. apply run_inv; [intros; apply FI_step; assumption|]. split; [exact L2|]. exists (fun _ => None). cbn [fst snd]. split; [exact G2|]. split; [discriminate|]. split.
    - intros b Hb. rewrite zeroed_eq by exact Hb. symmetry. apply num_none. reflexivity.
    - intros l Hl _. apply zeroed_ne, Hl. }
  split; [|exact H4].
  assert (forall a, (a < n)%nat -> exists j, sl a = Some j /\ 0 <= j < deg (tg a) /\ fst c2 (2%nat, Z.to_nat (fst_of (tg a) + j)) = Z.of_nat a) as K.
  { intros a Ha. apply finished_done in Hf. unfold all_done in Hf. rewrite Forall_forall in Hf. pose proof (H1 a Ha) as Hs.
    destruct (sl a) as [j|] eqn:Sa.
    - destruct Hs as [Hj [Hs|[Hs Hm]]]; [pose proof (Hf _ (nth_error_In _ _ Hs)); discriminate|].
      pose proof (num_le (started sl) (tg a)). exists j. split; [reflexivity|]. split; [lia|exact Hm].
    - pose proof (Hf _ (nth_error_In _ _ Hs)). discriminate. }
  set (slot := fun a : nat => match sl a with Some j => fst_of (tg a) + j | None => 0 end).
  assert (forall a, (a < n)%nat -> in_group f (Z.of_nat (tg a)) (slot a) /\ 0 <= slot a < Z.of_nat n /\ fst c2 (2%nat, Z.to_nat (slot a)) = Z.of_nat a) as KS.
  { intros a Ha. destruct (K a Ha) as (j & Sa & Hj & Hm). unfold slot. rewrite Sa.
    split; [apply slot_group; auto|]. split; [apply slot_range; auto|exact Hm]. }
  assert (is_perm (map slot (seq 0 n))) as SP.
  { apply is_perm_intro.
    - apply NoDup_nth_error. intros a a' Ha Heq. rewrite map_length, seq_length in Ha.
      assert (a' < n)%nat as Ha'.
      { destruct (Nat.lt_ge_cases a' n) as [H|H]; [exact H|]. rewrite (proj2 (nth_error_None (map slot (seq 0 n)) a')) in Heq by (rewrite map_length, seq_length; lia).
        apply nth_error_None in Heq. rewrite map_length, seq_length in Heq. lia. }
      rewrite !nth_seq_map in Heq by assumption. injection Heq as Heq.
      destruct (KS a Ha) as (_ & _ & M1). destruct (KS a' Ha') as (_ & _ & M2). rewrite Heq in M1. rewrite M1 in M2. lia.
    - intros b Hb. apply in_map_iff in Hb as (a & <- & Ha). apply in_seq in Ha. unfold zlen. rewrite map_length, seq_length. apply KS. lia. }
  assert (forall i, 0 <= i < Z.of_nat n -> exists a, (a < n)%nat /\ slot a = i) as Surj.
  { intros i Hi. assert (In i (map slot (seq 0 n))) as Hin by (apply (is_perm_in _ _ SP); unfold zlen; rewrite map_length, seq_length; lia).
    apply in_map_iff in Hin as (a & Ha & Hin). apply in_seq in Hin. exists a. split; [lia|exact Ha]. }
  set (r := array_of (fst c2) 2%nat (zlen a2b)).
  assert (zlen r = zlen a2b) as Lr by (apply zlen_array_of, zlen_nonneg).
  assert (forall a, (a < n)%nat -> zget r (slot a) = Ok (Z.of_nat a)) as Rslot.
  { intros a Ha. destruct (KS a Ha) as (_ & B & M). unfold r. rewrite zget_array_of by exact B. rewrite M. reflexivity. }
  assert (forall i x, zget r i = Ok x -> exists a, (a < n)%nat /\ slot a = i /\ x = Z.of_nat a) as Rinv.
  { intros i x Hx. pose proof (zget_bounds _ _ _ Hx) as B. rewrite Lr in B. destruct (Surj i B) as (a & Ha & Hs). exists a. split; [exact Ha|]. split; [exact Hs|].
    rewrite <- Hs, Rslot in Hx by exact Ha. congruence. }
  split; [exact f_fan|]. split; [exact f_len|]. split; [exact f_last|]. split; [exact Lr|]. split.
  - apply is_perm_intro.
    + apply NoDup_zget_inv. intros i j x Hi Hj. destruct (Rinv i x Hi) as (a & _ & <- & ->). destruct (Rinv j _ Hj) as (a' & _ & <- & Heq).
      apply Nat2Z.inj in Heq. congruence.
    + intros x Hx. apply In_zget in Hx as (i & Hi). destruct (Rinv i x Hi) as (a & Ha & _ & ->). rewrite Lr. unfold zlen. fold n. lia.
  - intros b i. split.
    + intros Hg. destruct (in_group_range f _ _ _ f_fan last_f Hg) as [Bi _]. destruct (Surj i Bi) as (a & Ha & <-).
      exists (Z.of_nat a). split; [apply Rslot, Ha|]. destruct (KS a Ha) as (Hg' & _). pose proof (in_group_unique f _ _ _ f_fan Hg Hg') as ->.
      apply tg_get, Ha.
    + intros (x & Hx & Hb). destruct (Rinv i x Hx) as (a & Ha & <- & ->). destruct (tg_get a Ha) as [E1 _]. rewrite E1 in Hb. injection Hb as <-. apply KS, Ha.
Qed.
End atomics.

Lemma count_list_sum a2b nb : 0 <= nb -> (forall b, In b a2b -> 0 <= b < nb) ->
  zsum (map (fun b => count (fun y => y =? b) a2b) (zrange nb)) = zlen a2b.
Proof.
  intros Hnb Hr. induction a2b as [|x l IH].
  - replace (map _ _) with (repeat 0 (length (zrange nb))). { generalize (length (zrange nb)). induction n; [reflexivity|]. cbn. exact IHn. }
    induction (zrange nb); cbn; [reflexivity|]. f_equal. exact IHl.
  - rewrite zlen_cons, <- IH by (intros; apply Hr; right; assumption). pose proof (Hr x ltac:(left; reflexivity)) as Hx.
    assert (forall bs, NoDup bs -> zsum (map (fun b => count (fun y => y =? b) (x :: l)) bs) =
       zsum (map (fun b => count (fun y => y =? b) l) bs) + (if in_dec Z.eq_dec x bs then 1 else 0)) as K.
    { induction 1 as [|b bs Hb Hn IHn]; [reflexivity|]. cbn [map zsum fold_right]. fold (zsum (map (fun b => count (fun y => y =? b) (x :: l)) bs)).
      fold (zsum (map (fun b => count (fun y => y =? b) l) bs)). rewrite IHn, count_cons.
      destruct (Z.eqb_spec x b) as [->|Hne].
      - destruct (in_dec Z.eq_dec b bs); [contradiction|]. destruct (in_dec Z.eq_dec b (b :: bs)) as [|C]; [lia|exfalso; apply C; left; reflexivity].
      - destruct (in_dec Z.eq_dec x bs) as [Hi|Hi]; destruct (in_dec Z.eq_dec x (b :: bs)) as [Hi'|Hi']; try lia.
        + exfalso. apply Hi'. right. exact Hi.
        + exfalso. destruct Hi' as [->|Hi']; [congruence|contradiction]. }
    rewrite K by apply zrange_NoDup. destruct (in_dec Z.eq_dec x (zrange nb)) as [|C]; [lia|]. exfalso. apply C, in_zrange, Hx.
Qed.

Lemma invert_map_by_atomics_spec a2b nb m0 s1 s2 : 0 <= nb -> (forall b, In b a2b -> 0 <= b < nb) ->
  exists o, invert_map_by_atomics a2b nb m0 s1 s2 = Ok o /\
  forall b2ba ba2a m, o = Some (b2ba, ba2a, m) -> inverts a2b nb b2ba ba2a /\
  (forall k i, ~ ((k = 0 \/ k = 1)%nat /\ Z.of_nat i < nb) -> ~ (k = 2%nat /\ Z.of_nat i < zlen a2b) -> m (k, i) = m0 (k, i)).
Proof.
  intros Hnb Hr. unfold invert_map_by_atomics. destruct (count_kernels a2b nb Hr) as (k1 & E1 & _). rewrite E1. cbn [bind].
  set (c1 := run _ s1). destruct (finished c1) eqn:F1; [|exists None; split; [reflexivity|discriminate]].
  destruct (count_result a2b nb Hr m0 k1 s1 E1 F1) as [C1 C2]. fold c1 in C1, C2.
  set (d := array_of (fst c1) 0%nat nb).
  assert (d = map (fun b => count (fun y => y =? b) a2b) (zrange nb)) as Hd.
  { unfold d, array_of. apply map_ext_in. intros b Hb. apply in_zrange in Hb. rewrite C1 by lia. rewrite Z2Nat.id by lia. reflexivity. }
  assert (zlen d = nb) as Ld by (unfold d; apply zlen_array_of; lia).
  set (f := offset_scan d).
  assert (zlen f = nb + 1) as Lf by (unfold f; rewrite offset_scan_length, Ld; reflexivity).
  assert (is_fan f) as Ff.
  { apply offset_scan_fan. intros x Hx. rewrite Hd in Hx. apply in_map_iff in Hx as (b & <- & _). apply count_nonneg. }
  assert (zget f nb = Ok (zlen a2b)) as Lastf.
  { pose proof (offset_scan_last d) as H. fold f in H. unfold last_of in H. rewrite Lf in H. replace (nb + 1 - 1) with nb in H by lia.
    rewrite H, Hd. f_equal. apply count_list_sum; auto. }
  assert (forall b, (b < Z.to_nat nb)%nat -> exists lo, zget f (Z.of_nat b) = Ok lo /\ zget f (Z.of_nat b + 1) = Ok (lo + deg a2b b)) as Fs.
  { intros b Hb. apply offset_scan_step. rewrite Hd, zget_map, zget_zrange by lia. reflexivity. }
  rewrite Lastf. cbn [bind].
  destruct (fill_kernels a2b nb Hr f Ff Fs) as (k2 & E2 & _). rewrite E2. cbn [bind].
  set (c2 := run _ s2). destruct (finished c2) eqn:F2; [|eexists; split; [reflexivity|discriminate]].
  eexists. split; [reflexivity|]. intros b2ba ba2a m Heq. injection Heq as <- <- <-.
  destruct (fill_result a2b nb Hr f Lf Ff Fs Lastf (fst c1) k2 s2 E2 F2) as [R1 R2]. fold c2 in R1, R2.
  split; [exact R1|]. intros k i H1 H2. rewrite R2; cbn [fst snd].
  - apply C2. cbn [fst snd]. intros [-> H]. apply H1. split; [left; reflexivity|lia].
  - intros [-> H]. apply H1. split; [right; reflexivity|lia].
  - intros [-> H]. apply H2. split; [reflexivity|unfold zlen; lia].
Qed.
