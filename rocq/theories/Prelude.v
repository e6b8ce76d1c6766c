(** Shared vocabulary of the model: outcomes of a C++ call, checked array access,
    loops.  Nothing here is specific to one source file. *)
From Coq Require Export List Arith ZArith Lia Bool FinFun Permutation Sorted.
From Coq Require Export ZifyBool ZifyNat.
Export ListNotations.
Ltac Zify.zify_post_hook ::= Z.div_mod_to_equations.

(** Outcome of a C++ call.
    [Abort]: OMEGA_H_CHECK failed or Omega_h_fail was called (src/Omega_h_fail.hpp:40-96,
    src/Omega_h_fail.cpp) and the process stops.
    [UB]: undefined behaviour (out-of-bounds access, division by zero, use after free, ...). *)
Inductive res (A : Type) : Type :=
| Ok (a : A)
| Abort
| UB.
Arguments Ok {A} a.
Arguments Abort {A}.
Arguments UB {A}.

Definition bind {A B} (m : res A) (f : A -> res B) : res B :=
  match m with
  | Ok a => f a
  | Abort => Abort
  | UB => UB
  end.

Declare Scope res_scope.
Delimit Scope res_scope with res.
Notation "x <- e ;; f" := (bind e (fun x => f))
  (at level 61, e at next level, right associativity) : res_scope.
Notation "' p <- e ;; f" := (bind e (fun p => f))
  (at level 61, p pattern, e at next level, right associativity) : res_scope.
Open Scope res_scope.

(** OMEGA_H_CHECK(cond), src/Omega_h_fail.hpp *)
Definition check (b : bool) : res unit := if b then Ok tt else Abort.

Definition zlen {A} (l : list A) : Z := Z.of_nat (length l).

(** Read<T>::operator[] / Write<T>::operator[] without OMEGA_H_CHECK_BOUNDS
    (src/Omega_h_array.hpp:60-70,122-128): out of range is undefined behaviour. *)
Definition zget {A} (l : list A) (i : Z) : res A :=
  if (i <? 0)%Z then UB
  else match nth_error l (Z.to_nat i) with
       | Some a => Ok a
       | None => UB
       end.

Fixpoint list_set {A} (l : list A) (n : nat) (v : A) : list A :=
  match l, n with
  | [], _ => []
  | _ :: t, O => v :: t
  | h :: t, S n => h :: list_set t n v
  end.

(** Write<T>::operator[] used as an lvalue (src/Omega_h_array.hpp:60-70). *)
Definition zset {A} (l : list A) (i : Z) (v : A) : res (list A) :=
  if ((0 <=? i) && (i <? zlen l))%Z then Ok (list_set l (Z.to_nat i) v) else UB.

Fixpoint mapM {A B} (f : A -> res B) (l : list A) : res (list B) :=
  match l with
  | [] => Ok []
  | x :: t => y <- f x ;; ys <- mapM f t ;; Ok (y :: ys)
  end.

Fixpoint foldM {A S} (f : S -> A -> res S) (l : list A) (s : S) : res S :=
  match l with
  | [] => Ok s
  | x :: t => s' <- f s x ;; foldM f t s'
  end.

(** 0, 1, ..., n-1 *)
Definition zrange (n : Z) : list Z := map Z.of_nat (seq 0 (Z.to_nat n)).

(** lo, lo+1, ..., hi-1 *)
Definition zfromto (lo hi : Z) : list Z := map (fun k => (lo + k)%Z) (zrange (hi - lo)).

(** parallel_for(n, f) for a kernel whose i-th iteration sets entry i of a fresh array. *)
Definition tabulate {A} (n : Z) (f : Z -> res A) : res (list A) := mapM f (zrange n).

(** parallel_for(n, f) for a kernel that scatters into an array, run in index order. *)
Definition forM {S} (n : Z) (s : S) (f : S -> Z -> res S) : res S := foldM f (zrange n) s.

(* ------------------------------------------------------------------ *)
(** Facts *)

Lemma bind_ok {A B} (m : res A) (f : A -> res B) b :
  bind m f = Ok b <-> exists a, m = Ok a /\ f a = Ok b.
Proof.
  split.
  - destruct m; simpl; intros H; try discriminate; eauto.
  - intros (a & -> & H); exact H.
Qed.

Lemma zlen_nonneg {A} (l : list A) : (0 <= zlen l)%Z.
Proof. unfold zlen; lia. Qed.

Lemma zlen_app {A} (l m : list A) : zlen (l ++ m) = (zlen l + zlen m)%Z.
Proof. unfold zlen; rewrite app_length; lia. Qed.

Lemma zlen_cons {A} (a : A) l : zlen (a :: l) = (zlen l + 1)%Z.
Proof. unfold zlen; simpl length; lia. Qed.

Lemma zlen_nil {A} : zlen (@nil A) = 0%Z.
Proof. reflexivity. Qed.

Lemma zlen_map {A B} (f : A -> B) l : zlen (map f l) = zlen l.
Proof. unfold zlen; rewrite map_length; reflexivity. Qed.

Lemma zget_ok {A} (l : list A) i a :
  zget l i = Ok a <-> (0 <= i)%Z /\ nth_error l (Z.to_nat i) = Some a.
Proof.
  unfold zget. destruct (Z.ltb_spec i 0).
  - split; [discriminate | lia].
  - destruct (nth_error l (Z.to_nat i)); split; intros Hx.
    + injection Hx as ->; split; [lia | reflexivity].
    + destruct Hx as [_ Hx]; injection Hx as ->; reflexivity.
    + discriminate.
    + destruct Hx as [_ Hx]; discriminate.
Qed.

Lemma zget_nat {A} (l : list A) n a :
  nth_error l n = Some a -> zget l (Z.of_nat n) = Ok a.
Proof. intros H; apply zget_ok; rewrite Nat2Z.id; split; [lia | exact H]. Qed.

Lemma zget_bounds {A} (l : list A) i a :
  zget l i = Ok a -> (0 <= i < zlen l)%Z.
Proof.
  intros H; apply zget_ok in H as [H0 H].
  assert (nth_error l (Z.to_nat i) <> None) as Hn by congruence.
  apply nth_error_Some in Hn. unfold zlen; lia.
Qed.

Lemma zget_in_range {A} (l : list A) i :
  (0 <= i < zlen l)%Z -> exists a, zget l i = Ok a.
Proof.
  unfold zlen; intros H.
  destruct (nth_error l (Z.to_nat i)) as [a|] eqn:E.
  - exists a; apply zget_ok; split; [lia | exact E].
  - apply nth_error_None in E; lia.
Qed.

Lemma zget_not_abort {A} (l : list A) i : zget l i <> Abort.
Proof. unfold zget; destruct (_ <? _)%Z; [discriminate|]; destruct nth_error; discriminate. Qed.

Lemma zget_In {A} (l : list A) i a : zget l i = Ok a -> In a l.
Proof. intros H; apply zget_ok in H as [_ H]; eapply nth_error_In; eauto. Qed.

Lemma zget_app_l {A} (l m : list A) i :
  (i < zlen l)%Z -> zget (l ++ m) i = zget l i.
Proof.
  unfold zget, zlen; intros H. destruct (Z.ltb_spec i 0); [reflexivity|].
  rewrite nth_error_app1 by lia. reflexivity.
Qed.

Lemma zget_app_r {A} (l m : list A) i :
  (zlen l <= i)%Z -> zget (l ++ m) i = zget m (i - zlen l).
Proof.
  unfold zget, zlen; intros H.
  destruct (Z.ltb_spec i 0); destruct (Z.ltb_spec (i - Z.of_nat (length l)) 0); try lia; try reflexivity.
  rewrite nth_error_app2 by lia. replace (Z.to_nat i - length l) with (Z.to_nat (i - Z.of_nat (length l))) by lia.
  reflexivity.
Qed.

Lemma zget_map {A B} (f : A -> B) l i :
  zget (map f l) i = (a <- zget l i ;; Ok (f a)).
Proof.
  unfold zget. destruct (_ <? _)%Z; [reflexivity|].
  rewrite nth_error_map. destruct (nth_error l _); reflexivity.
Qed.

Lemma list_set_length {A} (l : list A) n v : length (list_set l n v) = length l.
Proof. revert n; induction l as [|x l IH]; intros [|n]; simpl; auto. Qed.

Lemma list_set_nth_eq {A} (l : list A) n v :
  n < length l -> nth_error (list_set l n v) n = Some v.
Proof.
  revert n; induction l as [|x l IH]; intros [|n]; simpl; intros H; try lia; auto.
  apply IH; lia.
Qed.

Lemma list_set_nth_ne {A} (l : list A) n m v :
  n <> m -> nth_error (list_set l n v) m = nth_error l m.
Proof.
  revert n m; induction l as [|x l IH]; intros [|n] [|m]; simpl; intros H; try reflexivity; try lia.
  apply IH; lia.
Qed.

Lemma list_set_comm {A} (l : list A) n m v w :
  n <> m -> list_set (list_set l n v) m w = list_set (list_set l m w) n v.
Proof.
  revert n m; induction l as [|x l IH]; intros [|n] [|m]; simpl; intros H; try reflexivity; try lia.
  f_equal; apply IH; lia.
Qed.

Lemma zset_ok {A} (l : list A) i v l' :
  zset l i v = Ok l' <-> (0 <= i < zlen l)%Z /\ l' = list_set l (Z.to_nat i) v.
Proof.
  unfold zset.
  destruct ((0 <=? i) && (i <? zlen l))%Z eqn:E; split; intros H.
  - injection H as <-; split; [lia | reflexivity].
  - destruct H as [_ ->]; reflexivity.
  - discriminate.
  - lia.
Qed.

Lemma zset_zlen {A} (l : list A) i v l' : zset l i v = Ok l' -> zlen l' = zlen l.
Proof. intros H; apply zset_ok in H as [_ ->]; unfold zlen; rewrite list_set_length; reflexivity. Qed.

Lemma zset_get_eq {A} (l : list A) i v l' : zset l i v = Ok l' -> zget l' i = Ok v.
Proof.
  intros H; apply zset_ok in H as [Hb ->]; apply zget_ok; split; [lia|].
  apply list_set_nth_eq; unfold zlen in Hb; lia.
Qed.

Lemma zset_get_ne {A} (l : list A) i j v l' :
  zset l i v = Ok l' -> i <> j -> zget l' j = zget l j.
Proof.
  intros H Hn; apply zset_ok in H as [Hb ->]; unfold zget.
  destruct (Z.ltb_spec j 0); [reflexivity|].
  rewrite list_set_nth_ne by lia; reflexivity.
Qed.

Lemma zset_in_range {A} (l : list A) i v :
  (0 <= i < zlen l)%Z -> exists l', zset l i v = Ok l'.
Proof. intros H; eexists; apply zset_ok; split; [exact H | reflexivity]. Qed.

Lemma mapM_ok {A B} (f : A -> res B) l r :
  mapM f l = Ok r <-> Forall2 (fun x y => f x = Ok y) l r.
Proof.
  revert r; induction l as [|x l IH]; simpl; intros r.
  - split; intros H; [injection H as <-; constructor | inversion H; reflexivity].
  - split; intros H.
    + apply bind_ok in H as (y & Hy & H). apply bind_ok in H as (ys & Hys & H).
      injection H as <-. constructor; [exact Hy | apply IH; exact Hys].
    + inversion H as [|? y ? ys Hy Hys]; subst. rewrite Hy; simpl.
      apply IH in Hys; rewrite Hys; reflexivity.
Qed.

Lemma Forall2_len {A B} (R : A -> B -> Prop) l m : Forall2 R l m -> length l = length m.
Proof. induction 1; simpl; auto. Qed.

Lemma mapM_length {A B} (f : A -> res B) l r : mapM f l = Ok r -> length r = length l.
Proof. intros H; apply mapM_ok in H; symmetry; eapply Forall2_len; eauto. Qed.

Lemma mapM_nth {A B} (f : A -> res B) l r n x :
  mapM f l = Ok r -> nth_error l n = Some x -> exists y, f x = Ok y /\ nth_error r n = Some y.
Proof.
  intros H; apply mapM_ok in H. revert n; induction H as [|x' y l r Hx _ IH]; intros [|n]; simpl; intros Hn; try discriminate.
  - injection Hn as ->; eauto.
  - apply IH; exact Hn.
Qed.

Lemma mapM_map_ok {A B} (f : A -> res B) (g : A -> B) l :
  (forall x, In x l -> f x = Ok (g x)) -> mapM f l = Ok (map g l).
Proof.
  induction l as [|x l IH]; simpl; intros H; [reflexivity|].
  rewrite (H x) by (left; reflexivity). simpl. rewrite IH by (intros; apply H; right; assumption). reflexivity.
Qed.

Lemma mapM_ext {A B} (f g : A -> res B) l :
  (forall x, In x l -> f x = g x) -> mapM f l = mapM g l.
Proof.
  induction l as [|x l IH]; simpl; intros H; [reflexivity|].
  rewrite H by (left; reflexivity). destruct (g x); simpl; auto.
  rewrite IH by (intros; apply H; right; assumption). reflexivity.
Qed.

Lemma mapM_map {A B C} (f : B -> res C) (g : A -> B) l :
  mapM f (map g l) = mapM (fun x => f (g x)) l.
Proof. induction l as [|x l IH]; simpl; [reflexivity|]; rewrite IH; reflexivity. Qed.

Lemma mapM_app {A B} (f : A -> res B) l m :
  mapM f (l ++ m) = (a <- mapM f l ;; b <- mapM f m ;; Ok (a ++ b)).
Proof.
  induction l as [|x l IH]; simpl.
  - destruct (mapM f m); reflexivity.
  - destruct (f x); simpl; auto. rewrite IH. destruct (mapM f l); simpl; auto.
    destruct (mapM f m); reflexivity.
Qed.

Lemma foldM_app {A S} (f : S -> A -> res S) l m s :
  foldM f (l ++ m) s = (s' <- foldM f l s ;; foldM f m s').
Proof.
  revert s; induction l as [|x l IH]; simpl; intros s; [reflexivity|].
  destruct (f s x); simpl; auto.
Qed.

Lemma zrange_length n : length (zrange n) = Z.to_nat n.
Proof. unfold zrange; rewrite map_length, seq_length; reflexivity. Qed.

Lemma zlen_zrange n : (0 <= n)%Z -> zlen (zrange n) = n.
Proof. intros; unfold zlen; rewrite zrange_length; lia. Qed.

Lemma zrange_nth n k : k < Z.to_nat n -> nth_error (zrange n) k = Some (Z.of_nat k).
Proof.
  intros H; unfold zrange. rewrite nth_error_map.
  rewrite (nth_error_nth' _ 0) by (rewrite seq_length; exact H).
  rewrite seq_nth by exact H. reflexivity.
Qed.

Lemma in_zrange n x : In x (zrange n) <-> (0 <= x < n)%Z.
Proof.
  unfold zrange; rewrite in_map_iff; split.
  - intros (k & <- & Hk); apply in_seq in Hk; lia.
  - intros H; exists (Z.to_nat x); split; [lia | apply in_seq; lia].
Qed.

Lemma zrange_NoDup n : NoDup (zrange n).
Proof.
  unfold zrange. apply Injective_map_NoDup; [intros a b H; lia | apply seq_NoDup].
Qed.

Lemma zrange_succ n : (0 <= n)%Z -> zrange (n + 1) = zrange n ++ [n].
Proof.
  intros H; unfold zrange. replace (Z.to_nat (n + 1)) with (S (Z.to_nat n)) by lia.
  rewrite seq_S, map_app. simpl. f_equal. f_equal. lia.
Qed.

Lemma zrange_0 : zrange 0 = [].
Proof. reflexivity. Qed.

Lemma zrange_neg n : (n <= 0)%Z -> zrange n = [].
Proof. intros H; unfold zrange; replace (Z.to_nat n) with 0 by lia; reflexivity. Qed.

Lemma zget_zrange n i : (0 <= i < n)%Z -> zget (zrange n) i = Ok i.
Proof. intros H; apply zget_ok; split; [lia|]; rewrite zrange_nth by lia; f_equal; lia. Qed.

Lemma tabulate_ok {A} n (f : Z -> res A) r :
  (0 <= n)%Z ->
  tabulate n f = Ok r <->
  zlen r = n /\ forall i, (0 <= i < n)%Z -> exists a, f i = Ok a /\ zget r i = Ok a.
Proof.
  intros Hn; unfold tabulate; split.
  - intros H. pose proof (mapM_length _ _ _ H) as Hl. rewrite zrange_length in Hl.
    split; [unfold zlen; lia|].
    intros i Hi. destruct (mapM_nth _ _ _ (Z.to_nat i) i H) as (y & Hy & Hr).
    + rewrite zrange_nth by lia; f_equal; lia.
    + exists y; split; [exact Hy|]. apply zget_ok; split; [lia | exact Hr].
  - intros [Hl H]. apply mapM_ok.
    assert (length r = Z.to_nat n) as Hr by (unfold zlen in Hl; lia).
    clear Hl. unfold zrange. revert Hr H.
    assert (forall m s r, length r = m ->
      (forall k, k < m -> exists a, f (Z.of_nat (s + k)) = Ok a /\ nth_error r k = Some a) ->
      Forall2 (fun x y => f x = Ok y) (map Z.of_nat (seq s m)) r) as Hg.
    { clear. induction m as [|m IH]; intros s [|y r]; simpl; intros Hl H; try discriminate; constructor.
      - destruct (H 0) as (a & Ha & E); [lia|]. simpl in E; injection E as ->. rewrite Nat.add_0_r in Ha. exact Ha.
      - apply IH; [lia|]. intros k Hk. destruct (H (S k)) as (a & Ha & E); [lia|].
        exists a; split; [|exact E]. replace (S s + k) with (s + S k) by lia. exact Ha. }
    intros Hr H. apply (Hg _ 0); [exact Hr|].
    intros k Hk. destruct (H (Z.of_nat k)) as (a & Ha & Hz); [lia|].
    exists a; split; [exact Ha|]. apply zget_ok in Hz as [_ Hz]. rewrite Nat2Z.id in Hz. exact Hz.
Qed.

Lemma tabulate_map {A} n (f : Z -> res A) (g : Z -> A) :
  (forall i, (0 <= i < n)%Z -> f i = Ok (g i)) -> tabulate n f = Ok (map g (zrange n)).
Proof. intros H; apply mapM_map_ok; intros x Hx; apply H, in_zrange, Hx. Qed.

Lemma list_eq_nth {A} (l m : list A) :
  (forall n, nth_error l n = nth_error m n) -> l = m.
Proof.
  revert m; induction l as [|x l IH]; intros [|y m] H; auto.
  - specialize (H 0); discriminate.
  - specialize (H 0); discriminate.
  - pose proof (H 0) as H0; injection H0 as ->. f_equal; apply IH; intros n; exact (H (S n)).
Qed.

Lemma list_eq_zget {A} (l m : list A) :
  zlen l = zlen m -> (forall i, (0 <= i < zlen l)%Z -> zget l i = zget m i) -> l = m.
Proof.
  intros Hl H; apply list_eq_nth; intros n.
  destruct (lt_dec n (length l)) as [Hn|Hn].
  - specialize (H (Z.of_nat n)). unfold zlen in *. specialize (H ltac:(lia)).
    unfold zget in H. destruct (Z.ltb_spec (Z.of_nat n) 0); [lia|]. rewrite Nat2Z.id in H.
    destruct (nth_error l n) eqn:E1, (nth_error m n) eqn:E2; congruence.
  - unfold zlen in *. rewrite (proj2 (nth_error_None l n)) by lia.
    rewrite (proj2 (nth_error_None m n)) by lia. reflexivity.
Qed.

Lemma in_zfromto lo hi x : In x (zfromto lo hi) <-> (lo <= x < hi)%Z.
Proof.
  unfold zfromto; rewrite in_map_iff; split.
  - intros (k & <- & Hk); apply in_zrange in Hk; lia.
  - intros H; exists (x - lo)%Z; split; [lia | apply in_zrange; lia].
Qed.

Lemma zfromto_0 n : zfromto 0 n = zrange n.
Proof.
  unfold zfromto. rewrite Z.sub_0_r. rewrite <- (map_id (zrange n)) at 2. apply map_ext; intros; lia.
Qed.

Lemma zfromto_nil lo hi : (hi <= lo)%Z -> zfromto lo hi = [].
Proof. intros H; unfold zfromto; rewrite zrange_neg by lia; reflexivity. Qed.

Lemma zfromto_snoc lo hi : (lo <= hi)%Z -> zfromto lo (hi + 1) = zfromto lo hi ++ [hi].
Proof.
  intros H; unfold zfromto. replace (hi + 1 - lo)%Z with (hi - lo + 1)%Z by lia.
  rewrite zrange_succ by lia. rewrite map_app. simpl. repeat f_equal; lia.
Qed.

Lemma zrange_split_0 n : (0 < n)%Z -> zrange n = 0%Z :: map (fun k => (k + 1)%Z) (zrange (n - 1)).
Proof.
  intros H. unfold zrange. replace (Z.to_nat n) with (S (Z.to_nat (n - 1))) by lia.
  simpl. f_equal. rewrite <- seq_shift, !map_map. apply map_ext; intros; lia.
Qed.

Lemma zfromto_cons lo hi : (lo < hi)%Z -> zfromto lo hi = lo :: zfromto (lo + 1) hi.
Proof.
  intros H; unfold zfromto. rewrite zrange_split_0 by lia. simpl. f_equal; [lia|].
  rewrite map_map. replace (hi - (lo + 1))%Z with (hi - lo - 1)%Z by lia. apply map_ext; intros; lia.
Qed.

Lemma zfromto_app lo mid hi :
  (lo <= mid <= hi)%Z -> zfromto lo hi = zfromto lo mid ++ zfromto mid hi.
Proof.
  intros H. assert (forall k, zfromto lo (mid + Z.of_nat k) = zfromto lo mid ++ zfromto mid (mid + Z.of_nat k)) as Hk.
  { induction k as [|k IH].
    - rewrite Z.add_0_r, (zfromto_nil mid mid), app_nil_r by lia. reflexivity.
    - replace (mid + Z.of_nat (S k))%Z with (mid + Z.of_nat k + 1)%Z by lia.
      rewrite !zfromto_snoc by lia. rewrite IH, app_assoc. reflexivity. }
  replace hi with (mid + Z.of_nat (Z.to_nat (hi - mid)))%Z by lia. apply Hk.
Qed.

Lemma zlen_zfromto lo hi : (lo <= hi)%Z -> zlen (zfromto lo hi) = (hi - lo)%Z.
Proof. intros; unfold zfromto; rewrite zlen_map, zlen_zrange; lia. Qed.

Lemma forM_invariant {S} (I : Z -> S -> Prop) n s (f : S -> Z -> res S) :
  (0 <= n)%Z -> I 0%Z s ->
  (forall i s, (0 <= i < n)%Z -> I i s -> exists s', f s i = Ok s' /\ I (i + 1)%Z s') ->
  exists s', forM n s f = Ok s' /\ I n s'.
Proof.
  intros Hn H0 Hs. unfold forM.
  assert (forall k, (k <= Z.to_nat n)%nat ->
    exists s', foldM f (map Z.of_nat (seq 0 k)) s = Ok s' /\ I (Z.of_nat k) s') as Hk.
  { induction k as [|k IH]; intros Hk.
    - exists s; split; [reflexivity | exact H0].
    - destruct IH as (s1 & E & Hi); [lia|].
      destruct (Hs (Z.of_nat k) s1) as (s2 & E2 & Hi2); [lia | exact Hi|].
      exists s2. split.
      + rewrite seq_S, map_app, foldM_app, E. simpl. rewrite E2. reflexivity.
      + replace (Z.of_nat (Datatypes.S k)) with (Z.of_nat k + 1)%Z by lia. exact Hi2. }
  destruct (Hk (Z.to_nat n)) as (s' & E & Hi); [lia|].
  exists s'; split; [exact E|]. rewrite Z2Nat.id in Hi by lia. exact Hi.
Qed.

Lemma map_repeat {A B} (f : A -> B) x n : map f (repeat x n) = repeat (f x) n.
Proof. induction n; simpl; congruence. Qed.

Lemma nth_error_firstn_lt {A} (l : list A) n k : k < n -> nth_error (firstn n l) k = nth_error l k.
Proof.
  revert n k; induction l as [|x l IH]; intros [|n] [|k] H; simpl; try lia; try reflexivity.
  apply IH. lia.
Qed.
