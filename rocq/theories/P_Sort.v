From Verif Require Import Prelude M_Array M_Scan S_Scan P_Scan M_Sort S_Sort S_Map P_Array P_Map P_Map2.
Local Open Scope Z_scope.

(** * insertion sort with a comparison that answers *)
Section isort.
Variables (lt : Z -> Z -> res bool) (n : Z) (R : Z -> Z -> Prop).
Hypothesis lt_ok : forall x y, 0 <= x < n -> 0 <= y < n -> exists c, lt x y = Ok c.
Hypothesis R_trans : forall x y z, R x y -> R y z -> R x z.
(** inserting a later item *)
Hypothesis lt_true : forall x y, 0 <= x < n -> 0 <= y < n -> lt x y = Ok true -> R x y.
Hypothesis lt_false : forall x y, 0 <= x < n -> 0 <= y < n -> y < x -> lt x y = Ok false -> R y x.

Lemma insert_spec x l : 0 <= x < n -> (forall y, In y l -> 0 <= y < x) -> StronglySorted R l ->
  exists l', insert lt x l = Ok l' /\ Permutation l' (x :: l) /\ StronglySorted R l'.
Proof.
  intros Hx. induction l as [|y l IH]; intros Hl Hs; cbn [insert].
  - exists [x]. split; [reflexivity|]. split; [apply Permutation_refl|]. constructor; constructor.
  - assert (0 <= y < x) as Hy by (apply Hl; left; reflexivity).
    destruct (lt_ok x y) as ([|] & E); [lia|lia| |]; rewrite E; cbn [bind].
    + eexists. split; [reflexivity|]. split; [apply Permutation_refl|]. constructor; [exact Hs|].
      assert (R x y) as Hxy by (apply lt_true; auto; lia). constructor; [exact Hxy|].
      inversion Hs as [|? ? _ F]; subst. eapply Forall_impl; [|exact F]. intros z Hz. eauto.
    + inversion Hs as [|? ? Hs' F]; subst. destruct IH as (l' & E' & P' & S'); [intros z Hz; apply Hl; right; exact Hz|exact Hs'|].
      rewrite E'. cbn [bind]. exists (y :: l'). split; [reflexivity|]. split.
      * transitivity (y :: x :: l); [apply perm_skip, P'|apply perm_swap].
      * constructor; [exact S'|]. apply Forall_forall. intros z Hz. eapply Permutation_in in Hz; [|exact P'].
        destruct Hz as [<-|Hz]; [apply lt_false; auto; lia|]. eapply Forall_forall in F; eauto.
Qed.

Lemma isort_spec : 0 <= n ->
  exists p, parallel_sort lt (zrange n) = Ok p /\ Permutation p (zrange n) /\ StronglySorted R p.
Proof.
  intros Hn. unfold parallel_sort.
  destruct (forM_invariant (fun i s => Permutation s (zrange i) /\ StronglySorted R s) n [] (fun s x => insert lt x s) Hn)
    as (p & E & P & S).
  - split; [apply Permutation_refl|constructor].
  - intros i s Hi [P S]. destruct (insert_spec i s) as (s' & E & P' & S'); auto.
    + intros y Hy. eapply Permutation_in in Hy; [|exact P]. apply in_zrange in Hy. exact Hy.
    + exists s'. split; [exact E|]. split; [|exact S']. rewrite zrange_succ by lia.
      etransitivity; [exact P'|]. etransitivity; [apply perm_skip, P|]. apply Permutation_cons_append.
  - exists p. auto.
Qed.
End isort.

(** a sorted arrangement is unique *)
Lemma sorted_unique (R : Z -> Z -> Prop) l : forall m,
  (forall x, ~ R x x) -> (forall x y z, R x y -> R y z -> R x z) ->
  Permutation l m -> StronglySorted R l -> StronglySorted R m -> l = m.
Proof.
  intros m Hirr Htr. revert m. induction l as [|x l IH]; intros m P Sl Sm.
  - apply Permutation_nil in P. congruence.
  - destruct m as [|y m]; [apply Permutation_sym, Permutation_nil in P; discriminate|].
    inversion Sl as [|? ? Sl' Fl]; inversion Sm as [|? ? Sm' Fm]; subst.
    assert (x = y) as ->.
    { assert (In x (y :: m)) as Hx by (eapply Permutation_in; [exact P|left; reflexivity]).
      assert (In y (x :: l)) as Hy by (eapply Permutation_in; [apply Permutation_sym, P|left; reflexivity]).
      destruct Hx as [->|Hx]; [reflexivity|]. destruct Hy as [->|Hy]; [reflexivity|].
      exfalso. eapply Forall_forall in Fl; [|exact Hy]. eapply Forall_forall in Fm; [|exact Hx]. eapply Hirr; eauto. }
    f_equal. apply IH; auto. eapply Permutation_cons_inv; eauto.
Qed.

(** * lexicographic order *)
Lemma lex_lt_irrefl l : ~ lex_lt l l.
Proof. induction l as [|x l IH]; cbn; [tauto|]. intros [H|[_ H]]; [lia|auto]. Qed.
Lemma lex_lt_trans l : forall m k, lex_lt l m -> lex_lt m k -> lex_lt l k.
Proof.
  induction l as [|x l IH]; intros [|y m] [|z k]; cbn; try tauto.
  intros [H1|[-> H1]] [H2|[-> H2]]; [left; lia|left; lia|left; lia|right; split; [reflexivity|eapply IH; eauto]].
Qed.

Lemma stably_before_irrefl keys w x : ~ stably_before keys w x x.
Proof. intros [H|[_ H]]; [eapply lex_lt_irrefl; eauto|lia]. Qed.
Lemma stably_before_trans keys w x y z : stably_before keys w x y -> stably_before keys w y z -> stably_before keys w x z.
Proof.
  unfold stably_before. intros [H1|[E1 H1]] [H2|[E2 H2]].
  - left. eapply lex_lt_trans; eauto.
  - left. rewrite <- E2. exact H1.
  - left. rewrite E1. exact H2.
  - right. split; [congruence|lia].
Qed.

Lemma nth_error_skipn {A} (l : list A) : forall n k, nth_error (skipn n l) k = nth_error l (n + k).
Proof. induction l as [|x l IH]; intros [|n] k; cbn; try reflexivity; [destruct k; reflexivity|apply IH]. Qed.

Lemma tuple_length {A} (l : list A) n w i : 0 <= w -> 0 <= i < n -> zlen l = n * w -> zlen (tuple l w i) = w.
Proof.
  intros Hw Hi Hl. unfold tuple, zlen in *. rewrite firstn_length, skipn_length. nia.
Qed.
Lemma tuple_get {A} (l : list A) w i j : 0 <= i -> 0 <= j < w ->
  zget (tuple l w i) j = zget l (i * w + j).
Proof.
  intros Hi Hj. unfold zget. destruct (Z.ltb_spec j 0); [lia|]. destruct (Z.ltb_spec (i * w + j) 0); [nia|].
  unfold tuple. rewrite nth_error_firstn_lt by lia. rewrite nth_error_skipn.
  replace (Z.to_nat (i * w) + Z.to_nat j)%nat with (Z.to_nat (i * w + j)) by nia. reflexivity.
Qed.

Lemma compare_spec keys N : forall k j a b, 0 < N -> 0 <= j -> j + Z.of_nat k = N ->
  0 <= a -> 0 <= b -> (a + 1) * N <= zlen keys -> (b + 1) * N <= zlen keys ->
  exists c, compare_key_sets keys N (map (fun i => j + i) (zrange (Z.of_nat k))) a b = Ok c /\
   (c = true -> lex_lt (skipn (Z.to_nat j) (tuple keys N a)) (skipn (Z.to_nat j) (tuple keys N b))) /\
   (c = false -> lex_lt (skipn (Z.to_nat j) (tuple keys N b)) (skipn (Z.to_nat j) (tuple keys N a)) \/
                 skipn (Z.to_nat j) (tuple keys N a) = skipn (Z.to_nat j) (tuple keys N b)).
Proof.
  induction k as [|k IH]; intros j a b HN Hj Hk Ha Hb La Lb.
  - exists false. cbn. split; [reflexivity|]. split; [discriminate|]. intros _. right.
    rewrite !skipn_all2; [reflexivity| |]; unfold tuple; rewrite firstn_length; lia.
  - rewrite zrange_split_0 by lia. cbn [map compare_key_sets]. rewrite Z.add_0_r.
    destruct (zget_in_range keys (a * N + j)) as (x & Hx); [nia|].
    destruct (zget_in_range keys (b * N + j)) as (y & Hy); [nia|].
    rewrite Hx, Hy. cbn [bind]. rewrite map_map.
    replace (Z.of_nat (S k) - 1) with (Z.of_nat k) by lia.
    replace (map (fun x0 => j + (x0 + 1)) (zrange (Z.of_nat k))) with (map (fun i => (j + 1) + i) (zrange (Z.of_nat k)))
      by (apply map_ext; intros; lia).
    assert (forall c v, 0 <= c -> zget keys (c * N + j) = Ok v ->
       skipn (Z.to_nat j) (tuple keys N c) = v :: skipn (Z.to_nat (j + 1)) (tuple keys N c)) as Hsk.
    { intros c v Hc Hv. rewrite <- tuple_get in Hv by lia. apply zget_ok in Hv as [_ Hv].
      replace (Z.to_nat (j + 1)) with (S (Z.to_nat j)) by lia. revert Hv.
      generalize (tuple keys N c) (Z.to_nat j). clear. intros l m. revert l.
      induction m as [|m IHm]; intros [|h l] H; cbn in *; try discriminate; [congruence|apply IHm, H]. }
    rewrite (Hsk a x Ha Hx), (Hsk b y Hb Hy).
    destruct (Z.eqb_spec x y) as [->|Hne].
    + destruct (IH (j + 1) a b) as (c & E & C1 & C2); try lia. exists c. split; [exact E|]. split.
      * intros Hc. cbn. right. auto.
      * intros Hc. destruct (C2 Hc) as [H|H]; [left; cbn; auto|right; congruence].
    + exists (x <? y). split; [reflexivity|]. split; intros H; cbn; [left; lia|left; left; lia].
Qed.

Lemma sort_tmpl_spec keys N n : 0 < N -> zlen keys = n * N ->
  exists p, sort_by_keys_tmpl N keys = Ok p /\ Permutation p (zrange n) /\ StronglySorted (stably_before keys N) p.
Proof.
  intros HN Hl. unfold sort_by_keys_tmpl, divide_no_remainder, check.
  destruct (Z.eqb_spec N 0); [lia|]. cbn [negb bind]. rewrite Hl. rewrite Z.rem_mul by lia. cbn [Z.eqb bind].
  rewrite Z.quot_mul by lia. pose proof (zlen_nonneg keys) as Hnn.
  assert (forall a b, 0 <= a < n -> 0 <= b < n -> exists c, compare_key_sets keys N (zrange N) a b = Ok c /\
    (c = true -> lex_lt (tuple keys N a) (tuple keys N b)) /\
    (c = false -> lex_lt (tuple keys N b) (tuple keys N a) \/ tuple keys N a = tuple keys N b)) as HC.
  { intros a b Ha Hb. destruct (compare_spec keys N (Z.to_nat N) 0 a b) as (c & E & C1 & C2); try lia; try nia.
    exists c. replace (map (fun i => 0 + i) (zrange (Z.of_nat (Z.to_nat N)))) with (zrange N) in E.
    - cbn in C1, C2. auto.
    - rewrite Z2Nat.id by lia. rewrite <- (map_id (zrange N)) at 1. apply map_ext. intros; lia. }
  apply isort_spec.
  - intros x y Hx Hy. destruct (HC x y Hx Hy) as (c & E & _). eauto.
  - intros x y z. apply stably_before_trans.
  - intros x y Hx Hy E. destruct (HC x y Hx Hy) as (c & E' & C1 & _). left. apply C1. congruence.
  - intros x y Hx Hy Hlt E. destruct (HC x y Hx Hy) as (c & E' & _ & C2).
    destruct C2 as [H|H]; [congruence|left; exact H|right; split; [congruence|lia]].
  - nia.
Qed.

Lemma sort_by_keys_spec keys width n : 1 <= width <= 4 -> zlen keys = n * width ->
  exists p, sort_by_keys keys width = Ok p /\ zlen p = n /\ is_perm p /\ StronglySorted (stably_before keys width) p.
Proof.
  intros Hw Hl. destruct (sort_tmpl_spec keys width n) as (p & E & P & S); [lia|exact Hl|].
  assert (zlen p = n) as Hp.
  { unfold zlen. rewrite (Permutation_length P), zrange_length. pose proof (zlen_nonneg keys). nia. }
  exists p. split; [|split; [exact Hp|split; [unfold is_perm; rewrite Hp; exact P|exact S]]].
  unfold sort_by_keys.
  destruct (Z.eqb_spec width 1) as [->|]; [exact E|]. destruct (Z.eqb_spec width 2) as [->|]; [exact E|].
  destruct (Z.eqb_spec width 3) as [->|]; [exact E|]. destruct (Z.eqb_spec width 4) as [->|]; [exact E|]. lia.
Qed.

Lemma sort_by_keys_unique keys width n p q : 1 <= width <= 4 -> zlen keys = n * width ->
  sort_by_keys keys width = Ok p -> Permutation q (zrange n) -> StronglySorted (stably_before keys width) q -> q = p.
Proof.
  intros Hw Hl E Pq Sq. destruct (sort_by_keys_spec keys width n Hw Hl) as (p' & E' & Lp & Pp & Sp).
  assert (p' = p) as -> by congruence. unfold is_perm in Pp. rewrite Lp in Pp.
  eapply sorted_unique; [apply stably_before_irrefl|apply stably_before_trans| |exact Sq|exact Sp].
  etransitivity; [exact Pq|apply Permutation_sym, Pp].
Qed.

Lemma sort_by_keys_bad_width keys width : ~ (1 <= width <= 4) -> sort_by_keys keys width = Abort.
Proof.
  intros H. unfold sort_by_keys.
  destruct (Z.eqb_spec width 1); [lia|]. destruct (Z.eqb_spec width 2); [lia|].
  destruct (Z.eqb_spec width 3); [lia|]. destruct (Z.eqb_spec width 4); [lia|]. reflexivity.
Qed.

Lemma sort_by_keys_remainder keys width : 1 <= width <= 4 -> zlen keys mod width <> 0 -> sort_by_keys keys width = Abort.
Proof.
  intros Hw Hr. pose proof (zlen_nonneg keys).
  assert (sort_by_keys_tmpl width keys = Abort) as E.
  { unfold sort_by_keys_tmpl, divide_no_remainder, check. destruct (Z.eqb_spec width 0); [lia|]. cbn [negb bind].
    rewrite Z.rem_mod_nonneg by lia. destruct (Z.eqb_spec (zlen keys mod width) 0); [lia|reflexivity]. }
  unfold sort_by_keys.
  destruct (Z.eqb_spec width 1) as [->|]; [exact E|]. destruct (Z.eqb_spec width 2) as [->|]; [exact E|].
  destruct (Z.eqb_spec width 3) as [->|]; [exact E|]. destruct (Z.eqb_spec width 4) as [->|]; [exact E|]. lia.
Qed.
