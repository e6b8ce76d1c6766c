From Coq Require Import Permutation.
From Verif Require Import Prelude M_Array P_Array P_Graph M_Sort M_ArrayOps S_ArrayOps P_Align P_Map.
Local Open Scope Z_scope.

(** ** reductions with a total operator *)
Section total.
Context {A : Type}.
Variable op : A -> A -> A.
Hypothesis assoc : forall x y z, op (op x y) z = op x (op y z).
Hypothesis comm : forall x y, op x y = op y x.

Lemma fold_shift l : forall a b, fold_left op l (op a b) = op a (fold_left op l b).
Proof. induction l as [|x l IH]; intros a b; cbn [fold_left]; [reflexivity|]. rewrite assoc. apply IH. Qed.
Lemma fold_perm l l' : Permutation l l' -> forall a, fold_left op l a = fold_left op l' a.
Proof.
  induction 1 as [|x l l' _ IH|x y l|l l' l'' _ IH1 _ IH2]; intros a; cbn [fold_left]; auto.
  - rewrite !assoc, (comm y x). reflexivity.
  - rewrite IH1. apply IH2.
Qed.
Lemma fold_chunks chunks : forall a p, (forall c, op (op a c) p = op a c) -> op a p = a ->
  fold_left op (map (fun c => fold_left op c p) chunks) a = fold_left op (concat chunks) a.
Proof.
  induction chunks as [|c cs IH]; intros a p H1 H0; cbn [map fold_left concat]; [reflexivity|].
  rewrite fold_left_app. assert (op a (fold_left op c p) = fold_left op c a) as ->.
  { rewrite <- fold_shift. rewrite H0. reflexivity. }
  assert (exists b, fold_left op c a = op a b \/ fold_left op c a = a) as (b & Hb).
  { destruct c as [|x c]; [exists a; right; reflexivity|]. exists (fold_left op c x). left. cbn [fold_left]. apply fold_shift. }
  apply IH.
  - intros d. destruct Hb as [-> | ->]; [|apply H1]. rewrite (assoc a b d). apply H1.
  - destruct Hb as [-> | ->]; [apply H1|exact H0].
Qed.

Lemma loop_total (t : Z -> res A) (g : Z -> A) l : (forall i, In i l -> t i = Ok (g i)) -> forall a,
  foldM (fun acc i => x <- t i ;; pure op acc x) l a = Ok (fold_left op (map g l) a).
Proof.
  induction l as [|i l IH]; intros H a; [reflexivity|]. cbn [foldM map fold_left]. rewrite (H i (or_introl eq_refl)). cbn [bind]. unfold pure at 1. cbn [bind].
  apply IH. intros j Hj. apply H. right. exact Hj.
Qed.
Lemma foldM_pure l : forall a, foldM (pure op) l a = Ok (fold_left op l a).
Proof. induction l as [|x l IH]; intros a; [reflexivity|]. cbn [foldM fold_left]. apply IH. Qed.

(** the private copies start at [priv]; combining one more of them into a running value is harmless *)
Lemma reduce_total b n init priv (t : Z -> res A) (g : Z -> A) : covers b n -> (forall i, 0 <= i < n -> t i = Ok (g i)) -> op init priv = init ->
  transform_reduce b n init priv (pure op) t = Ok (fold_left op (map g (zrange n)) init).
Proof.
  intros Hc Ht Hp. destruct b as [|threads]; cbn [transform_reduce]; cbv zeta.
  - apply loop_total. intros i Hi. apply in_zrange in Hi. auto.
  - cbn [covers] in Hc. rewrite (mapM_map_ok _ (fun its => fold_left op (map g its) priv)).
    + cbn [bind]. rewrite foldM_pure. f_equal. rewrite <- (map_map (map g) (fun c => fold_left op c priv)). rewrite fold_chunks.
      * rewrite <- concat_map. apply fold_perm, Permutation_map, Hc.
      * intros c. rewrite assoc, (comm c priv), <- assoc, Hp. reflexivity.
      * exact Hp.
    + intros its Hi. apply loop_total. intros i Hin. apply Ht. apply in_zrange. eapply Permutation_in; [exact Hc|]. apply in_concat. eauto.
Qed.
End total.

Lemma andb_fold l : forall a, fold_left andb l a = true <-> a = true /\ forall x, In x l -> x = true.
Proof.
  induction l as [|y l IH]; intros a; cbn [fold_left]; [intuition|]. rewrite IH, andb_true_iff. cbn [In]. split.
  - intros [[Ha Hy] H]. split; [exact Ha|]. intros x [<-|Hx]; auto.
  - intros [Ha H]. auto.
Qed.
Lemma max_fold l : forall a, a <= fold_left Z.max l a /\ (forall x, In x l -> x <= fold_left Z.max l a) /\ (fold_left Z.max l a = a \/ In (fold_left Z.max l a) l).
Proof.
  induction l as [|y l IH]; intros a; cbn [fold_left In]; [split; [lia|]; split; [tauto|auto]|]. destruct (IH (Z.max a y)) as (H1 & H2 & H3).
  split; [lia|]. split; [intros x [<-|Hx]; [lia|auto]|]. destruct H3 as [-> |H3]; [|auto]. destruct (Z.max_spec a y) as [[_ ->]|[_ ->]]; auto.
Qed.
Lemma min_fold l : forall a, fold_left Z.min l a <= a /\ (forall x, In x l -> fold_left Z.min l a <= x) /\ (fold_left Z.min l a = a \/ In (fold_left Z.min l a) l).
Proof.
  induction l as [|y l IH]; intros a; cbn [fold_left In]; [split; [lia|]; split; [tauto|auto]|]. destruct (IH (Z.min a y)) as (H1 & H2 & H3).
  split; [lia|]. split; [intros x [<-|Hx]; [lia|auto]|]. destruct H3 as [-> |H3]; [|auto]. destruct (Z.min_spec a y) as [[_ ->]|[_ ->]]; auto.
Qed.

Definition at_ (l : list Z) (i : Z) : Z := match zget l i with Ok x => x | _ => 0 end.
Lemma at_ok l i : 0 <= i < zlen l -> zget l i = Ok (at_ l i).
Proof. intros H. unfold at_. destruct (zget_in_range l i H) as (x & ->). reflexivity. Qed.
Lemma map_at l : map (at_ l) (zrange (zlen l)) = l.
Proof. apply list_eq_zget; [rewrite zlen_map, zlen_zrange; pose proof (zlen_nonneg l); lia|]. intros i Hi. rewrite zlen_map, zlen_zrange in Hi by apply zlen_nonneg. rewrite zget_map, zget_zrange by exact Hi. cbn [bind]. symmetry. apply at_ok, Hi. Qed.

Lemma equal_spec b x y : (zlen x = zlen y -> covers b (zlen x)) ->
  (zlen x = zlen y -> exists r, arrays_equal b x y = Ok r /\ (r = true <-> x = y)) /\ (zlen x <> zlen y -> arrays_equal b x y = Abort).
Proof.
  intros Hc. unfold arrays_equal, check. split; intros E; destruct (Z.eqb_spec (zlen x) (zlen y)); try congruence; [|reflexivity]. cbn [bind].
  erewrite reduce_total with (g := fun i => at_ x i =? at_ y i); [|intros; symmetry; apply andb_assoc|apply andb_comm|auto| |reflexivity].
  - eexists. split; [reflexivity|]. rewrite andb_fold. split.
    + intros [_ H]. apply list_eq_zget; [exact E|]. intros i Hi. rewrite (at_ok x i Hi), (at_ok y i) by lia. f_equal. apply Z.eqb_eq, H, in_map_iff. exists i. split; [reflexivity|]. apply in_zrange, Hi.
    + intros <-. split; [reflexivity|]. intros r Hr. apply in_map_iff in Hr as (i & <- & _). apply Z.eqb_refl.
  - intros i Hi. rewrite (at_ok x i Hi), (at_ok y i) by lia. reflexivity.
Qed.
Lemma get_max_spec b tmin pmin a : covers b (zlen a) -> pmin <= tmin -> exists r, get_max b tmin pmin a = Ok r /\ tmin <= r /\ (forall x, In x a -> x <= r) /\ (r = tmin \/ In r a).
Proof.
  intros Hc Hp. unfold get_max. rewrite (reduce_total Z.max ltac:(intros; lia) ltac:(intros; lia) b _ tmin pmin _ (at_ a) Hc); [|intros i Hi; apply at_ok, Hi|lia].
  rewrite map_at. eexists. split; [reflexivity|]. apply max_fold.
Qed.
Lemma get_min_spec b tmax pmax a : covers b (zlen a) -> tmax <= pmax -> exists r, get_min b tmax pmax a = Ok r /\ r <= tmax /\ (forall x, In x a -> r <= x) /\ (r = tmax \/ In r a).
Proof.
  intros Hc Hp. unfold get_min. rewrite (reduce_total Z.min ltac:(intros; lia) ltac:(intros; lia) b _ tmax pmax _ (at_ a) Hc); [|intros i Hi; apply at_ok, Hi|lia].
  rewrite map_at. eexists. split; [reflexivity|]. apply min_fold.
Qed.
Lemma find_last_spec b lo_min a v : covers b (zlen a) -> lo_min <= -1 ->
  exists r, find_last b lo_min a v = Ok r /\ ((r = -1 /\ ~ In v a) \/ (zget a r = Ok v /\ forall i, r < i -> zget a i <> Ok v)).
Proof.
  intros Hc Hp. unfold find_last. rewrite (reduce_total Z.max ltac:(intros; lia) ltac:(intros; lia) b _ (-1) lo_min _ (fun i => if at_ a i =? v then i else -1) Hc); [|intros i Hi; rewrite (at_ok a i Hi); reflexivity|lia].
  eexists. split; [reflexivity|]. set (l := map _ _). destruct (max_fold l (-1)) as (H1 & H2 & H3). set (r := fold_left Z.max l (-1)) in *.
  assert (forall i, zget a i = Ok v -> i <= r) as Hle.
  { intros i Hi. apply H2. unfold l. apply in_map_iff. exists i. pose proof (zget_bounds _ _ _ Hi) as B. unfold at_. rewrite Hi, Z.eqb_refl. split; [reflexivity|]. apply in_zrange, B. }
  destruct H3 as [E|Hin].
  - left. split; [exact E|]. intros Hv. apply In_zget in Hv as (i & Hi). pose proof (zget_bounds _ _ _ Hi). pose proof (Hle i Hi). lia.
  - unfold l in Hin. apply in_map_iff in Hin as (i & Ei & Hi). apply in_zrange in Hi. destruct (Z.eqb_spec (at_ a i) v) as [Ev|].
    + right. rewrite <- Ei. rewrite (at_ok a i Hi), Ev. split; [reflexivity|]. intros j Hj Hv. pose proof (Hle j Hv). lia.
    + left. split; [lia|]. intros Hv. apply In_zget in Hv as (j & Hj). pose proof (zget_bounds _ _ _ Hj). pose proof (Hle j Hj). lia.
Qed.
Lemma is_sorted_spec b a : covers b (zlen a - 1) -> exists r, is_sorted b a = Ok r /\ (r = true <-> forall i x y, zget a i = Ok x -> zget a (i + 1) = Ok y -> x <= y).
Proof.
  intros Hc. unfold is_sorted. destruct (Z.ltb_spec (zlen a) 2) as [Hs|Hs].
  - eexists. split; [reflexivity|]. split; [|reflexivity]. intros _ i x y Hx Hy. apply zget_bounds in Hx, Hy. lia.
  - erewrite reduce_total with (g := fun i => at_ a i <=? at_ a (i + 1)); [|intros; symmetry; apply andb_assoc|apply andb_comm|exact Hc| |reflexivity].
    + eexists. split; [reflexivity|]. rewrite andb_fold. split.
      * intros [_ H] i x y Hx Hy. pose proof (zget_bounds _ _ _ Hx). pose proof (zget_bounds _ _ _ Hy). specialize (H (at_ a i <=? at_ a (i + 1))).
        unfold at_ in H. rewrite Hx, Hy in H. apply Z.leb_le, H, in_map_iff. exists i. rewrite Hx, Hy. split; [reflexivity|]. apply in_zrange. lia.
      * intros H. split; [reflexivity|]. intros r Hr. apply in_map_iff in Hr as (i & <- & Hi). apply in_zrange in Hi. apply Z.leb_le. apply (H i); apply at_ok; lia.
    + intros i Hi. rewrite (at_ok a i), (at_ok a (i + 1)) by lia. reflexivity.
Qed.

(** ** sums, with overflow *)
Lemma zsum_abs_app l m : zsum_abs (l ++ m) = zsum_abs l + zsum_abs m.
Proof. induction l as [|x l IH]; cbn [app zsum_abs fold_right]; [reflexivity|]. fold (zsum_abs (l ++ m)) (zsum_abs l). lia. Qed.
Lemma zsum_app l m : fold_right Z.add 0 (l ++ m) = fold_right Z.add 0 l + fold_right Z.add 0 m.
Proof. induction l as [|x l IH]; cbn [app fold_right]; lia. Qed.
Lemma zsum_abs_nonneg l : 0 <= zsum_abs l. Proof. induction l as [|x l IH]; cbn [zsum_abs fold_right]; [lia|]. fold (zsum_abs l). lia. Qed.
Lemma zsum_le_abs l : Z.abs (fold_right Z.add 0 l) <= zsum_abs l. Proof. induction l as [|x l IH]; cbn [zsum_abs fold_right]; [lia|]. fold (zsum_abs l). lia. Qed.
Lemma sum_loop max (t : Z -> res Z) g l : (forall i, In i l -> t i = Ok (g i)) -> forall a, Z.abs a + zsum_abs (map g l) <= max ->
  foldM (fun acc i => x <- t i ;; add_ck max acc x) l a = Ok (a + fold_right Z.add 0 (map g l)).
Proof.
  induction l as [|i l IH]; intros H a Ha; [cbn [foldM map fold_right]; f_equal; lia|]. cbn [foldM map fold_right zsum_abs] in *. fold (zsum_abs (map g l)) in Ha.
  rewrite (H i (or_introl eq_refl)). cbn [bind]. pose proof (zsum_abs_nonneg (map g l)). unfold add_ck at 1.
  destruct (Z.leb_spec (- max - 1) (a + g i)); [|lia]. destruct (Z.leb_spec (a + g i) max); [|lia]. cbn [andb bind].
  rewrite IH; [f_equal; lia| |lia]. intros j Hj. apply H. right. exact Hj.
Qed.
Lemma perm_zsum l m : Permutation l m -> fold_right Z.add 0 l = fold_right Z.add 0 m /\ zsum_abs l = zsum_abs m.
Proof. induction 1 as [|x l m _ [IH1 IH2]|x y l|l m k _ [H1 H2] _ [H3 H4]]; cbn [fold_right zsum_abs]; try fold (zsum_abs l); try fold (zsum_abs m); split; lia. Qed.
Lemma sum_copies max cs : forall a, Z.abs a + zsum_abs cs <= max -> foldM (add_ck max) cs a = Ok (a + fold_right Z.add 0 cs).
Proof.
  induction cs as [|c cs IH]; intros a Ha; [cbn [foldM fold_right]; f_equal; lia|]. cbn [foldM fold_right zsum_abs] in *. fold (zsum_abs cs) in Ha. pose proof (zsum_abs_nonneg cs).
  unfold add_ck at 1. destruct (Z.leb_spec (- max - 1) (a + c)); [|lia]. destruct (Z.leb_spec (a + c) max); [|lia]. cbn [andb bind]. rewrite IH; [f_equal|]; lia.
Qed.
Lemma chunk_sums (g : Z -> Z) (chunks : list (list Z)) : fold_right Z.add 0 (map (fun its => 0 + fold_right Z.add 0 (map g its)) chunks) = fold_right Z.add 0 (map g (concat chunks)) /\
  zsum_abs (map (fun its => 0 + fold_right Z.add 0 (map g its)) chunks) <= zsum_abs (map g (concat chunks)).
Proof.
  induction chunks as [|c cs [IH1 IH2]]; cbn [map concat fold_right zsum_abs]; [split; reflexivity|]. rewrite map_app, zsum_app, zsum_abs_app.
  fold (zsum_abs (map (fun its => 0 + fold_right Z.add 0 (map g its)) cs)). pose proof (zsum_le_abs (map g c)). split; lia.
Qed.
Lemma get_sum_spec b max a : covers b (zlen a) -> zsum_abs a <= max -> get_sum b max a = Ok (fold_right Z.add 0 a).
Proof.
  intros Hc Hm. unfold get_sum. destruct b as [|threads]; cbn [transform_reduce]; cbv zeta.
  - rewrite (sum_loop max (zget a) (at_ a)); [rewrite map_at; f_equal| |rewrite map_at; cbn [Z.abs]; lia]. intros i Hi. apply in_zrange in Hi. apply at_ok, Hi.
  - cbn [covers] in Hc. pose proof (Permutation_map (at_ a) Hc) as Hp. rewrite map_at in Hp. apply perm_zsum in Hp as [P1 P2].
    assert (forall its, In its threads -> zsum_abs (map (at_ a) its) <= zsum_abs (map (at_ a) (concat threads))) as Hle.
    { clear. induction threads as [|c cs IH]; intros its Hi; [destruct Hi|]. cbn [concat]. rewrite map_app, zsum_abs_app. pose proof (zsum_abs_nonneg (map (at_ a) (concat cs))). pose proof (zsum_abs_nonneg (map (at_ a) c)). destruct Hi as [<-|Hi]; [lia|]. pose proof (IH its Hi). lia. }
    rewrite (mapM_map_ok _ (fun its => 0 + fold_right Z.add 0 (map (at_ a) its))).
    + cbn [bind]. destruct (chunk_sums (at_ a) threads) as [C1 C2]. rewrite sum_copies; [rewrite C1, P1; f_equal|cbn [Z.abs]; lia].
    + intros its Hi. apply sum_loop; [|pose proof (Hle its Hi); cbn [Z.abs]; lia]. intros i Hin. apply at_ok. apply in_zrange. eapply Permutation_in; [exact Hc|]. apply in_concat. eauto.
Qed.
Lemma omp_sum_overflow : get_sum (OpenMP [[0; 2]; [1]]) 2147483647 [2147483647; -1; 1] = UB /\ get_sum Serial 2147483647 [2147483647; -1; 1] = Ok 2147483647.
Proof. split; vm_compute; reflexivity. Qed.

(** a user-declared operator whose private copies start at the original value counts it again *)
Lemma custom_init_again : transform_reduce (OpenMP [[0]; [1]]) 2 10 10 (pure Z.add) (fun i => Ok i) = Ok 31 /\ transform_reduce Serial 2 10 10 (pure Z.add) (fun i => Ok i) = Ok 11.
Proof. split; reflexivity. Qed.

(** ** components *)
Lemma strided_ne j i n c d : 0 <= c < n -> 0 <= d < n -> c <> d -> j * n + c <> i * n + d.
Proof. intros. destruct (Z.lt_trichotomy j i) as [K|[->|K]]; nia. Qed.

Lemma store_loop {A B} n (pos : Z -> Z) (val : Z -> res A) (w : A -> B) (g : Z -> A) (out : list B) : 0 <= n ->
  (forall i, 0 <= i < n -> 0 <= pos i < zlen out /\ val i = Ok (g i)) -> (forall i j, 0 <= i < n -> 0 <= j < n -> pos i = pos j -> i = j) ->
  exists out', forM n out (fun out i => x <- val i ;; zset out (pos i) (w x)) = Ok out' /\ zlen out' = zlen out /\
  (forall i, 0 <= i < n -> zget out' (pos i) = Ok (w (g i))) /\ (forall k, (forall i, 0 <= i < n -> pos i <> k) -> zget out' k = zget out k).
Proof.
  intros Hn HP HI.
  destruct (forM_invariant (fun m o => zlen o = zlen out /\ (forall i, 0 <= i < m -> zget o (pos i) = Ok (w (g i))) /\ (forall k, (forall i, 0 <= i < m -> pos i <> k) -> zget o k = zget out k))
    n out (fun out i => x <- val i ;; zset out (pos i) (w x)) Hn) as (o & E & L & G1 & G2).
  - split; [reflexivity|]. split; [intros; lia|auto].
  - intros i o Hi (L & G1 & G2). destruct (HP i Hi) as [Hp Hv]. rewrite Hv. cbn [bind]. destruct (zset_in_range o (pos i) (w (g i)) ltac:(lia)) as (o' & Eo).
    exists o'. split; [exact Eo|]. rewrite (zset_zlen _ _ _ _ Eo). split; [exact L|]. split.
    + intros j Hj. destruct (Z.eq_dec j i) as [->|Hne]; [apply (zset_get_eq _ _ _ _ Eo)|]. rewrite (zset_get_ne _ _ _ _ _ Eo); [apply G1; lia|]. intros F. apply Hne. symmetry. apply HI; [lia|lia|congruence].
    + intros k Hk. rewrite (zset_get_ne _ _ _ _ _ Eo); [apply G2; intros j Hj; apply Hk; lia|]. intros F. apply (Hk i ltac:(lia)). congruence.
  - exists o. auto.
Qed.

Lemma component_spec {A} (l : list A) ncomps comp n : 0 < ncomps -> zlen l = n * ncomps -> 0 <= comp < ncomps ->
  exists r, component l ncomps comp = Ok r /\ zlen r = n /\ forall i, 0 <= i < n -> zget r i = zget l (i * ncomps + comp).
Proof.
  intros Hn Hl Hc. assert (0 <= n) as Hn0 by (pose proof (zlen_nonneg l); nia). unfold component, divide_no_remainder, check.
  destruct (Z.eqb_spec ncomps 0); [lia|]. cbn [negb bind]. rewrite Hl. rewrite Z.quot_mul, Z.rem_mul by lia. cbn [Z.eqb bind]. unfold tabulate.
  destruct (mapM_total (fun i => zget l (i * ncomps + comp)) (zrange n)) as (r & E).
  { intros i Hi. apply in_zrange in Hi. apply zget_in_range. nia. }
  exists r. split; [exact E|]. apply (tabulate_ok n (fun i => zget l (i * ncomps + comp)) r Hn0) in E as [E1 E2]. split; [exact E1|].
  intros i Hi. destruct (E2 i Hi) as (x & -> & ->). reflexivity.
Qed.
Definition atd {A} (d : A) (l : list A) (i : Z) : A := match zget l i with Ok x => x | _ => d end.
Lemma atd_ok {A} (d : A) l i : 0 <= i < zlen l -> zget l i = Ok (atd d l i).
Proof. intros H. unfold atd. destruct (zget_in_range l i H) as (x & ->). reflexivity. Qed.

Lemma set_component_spec {A} (out a : list A) ncomps comp : 0 <= comp < ncomps -> zlen out = zlen a * ncomps ->
  exists out', set_component out a ncomps comp = Ok out' /\ zlen out' = zlen out /\ component out' ncomps comp = Ok a /\
  forall c, 0 <= c < ncomps -> c <> comp -> component out' ncomps c = component out ncomps c.
Proof.
  intros Hc Hl. pose proof (zlen_nonneg a) as Ha.
  assert (exists out', set_component out a ncomps comp = Ok out' /\ zlen out' = zlen out /\
    (forall i, 0 <= i < zlen a -> zget out' (i * ncomps + comp) = zget a i) /\ (forall k, (forall i, 0 <= i < zlen a -> i * ncomps + comp <> k) -> zget out' k = zget out k)) as (out' & E & L & G1 & G2).
  { destruct a as [|x0 a0]; [exists out; split; [reflexivity|]; split; [reflexivity|]; split; [cbn; intros; lia|auto]|]. set (a := x0 :: a0) in *.
    destruct (store_loop (zlen a) (fun i => i * ncomps + comp) (zget a) (fun x => x) (atd x0 a) out Ha) as (o & E & L & G1 & G2).
    - intros i Hi. split; [nia|apply atd_ok, Hi].
    - intros i j Hi Hj E. nia.
    - exists o. split; [exact E|]. split; [exact L|]. split; [|exact G2]. intros i Hi. rewrite (G1 i Hi). symmetry. apply atd_ok, Hi. }
  exists out'. split; [exact E|]. split; [exact L|]. split.
  - destruct (component_spec out' ncomps comp (zlen a) ltac:(lia) ltac:(lia) Hc) as (r & Er & Lr & Gr). rewrite Er. f_equal. apply list_eq_zget; [lia|]. intros i Hi. rewrite Gr by lia. apply G1. lia.
  - intros c Hc' Hne. destruct (component_spec out' ncomps c (zlen a) ltac:(lia) ltac:(lia) Hc') as (r & Er & Lr & Gr). destruct (component_spec out ncomps c (zlen a) ltac:(lia) Hl Hc') as (r2 & Er2 & Lr2 & Gr2).
    rewrite Er, Er2. f_equal. apply list_eq_zget; [lia|]. intros i Hi. rewrite Gr, Gr2 by lia. apply G2. intros j Hj. apply strided_ne; lia.
Qed.

Lemma interleave_spec {A} (arrays : list (list A)) n : arrays <> [] -> (forall a, In a arrays -> zlen a = n) ->
  exists out, interleave arrays = Ok out /\ zlen out = zlen arrays * n /\ forall i a, zget arrays i = Ok a -> component out (zlen arrays) i = Ok a.
Proof.
  intros Hne HL. destruct arrays as [|front rest]; [congruence|]. set (arrays := front :: rest) in *. assert (zlen front = n) as Lf by (apply HL; left; reflexivity).
  pose proof (zlen_nonneg front) as Hn. assert (1 <= zlen arrays) as Hk by (unfold arrays; rewrite zlen_cons; pose proof (zlen_nonneg rest); lia).
  unfold interleave. change (front :: rest) with arrays. cbn [interleave]. unfold arrays at 1. cbv beta iota. fold arrays. rewrite Lf.
  rewrite (mapM_map_ok _ (fun _ => tt)) by (intros a Ha; unfold check; rewrite (HL a Ha), Z.eqb_refl; reflexivity). cbn [bind]. rewrite blank_ok by nia. cbn [bind].
  set (k := zlen arrays) in *. set (blk := repeat None (Z.to_nat (k * n))). assert (zlen blk = k * n) as Lb by (unfold blk; rewrite zlen_repeat; nia).
  destruct (forM_invariant (fun m (o : list (option A)) => zlen o = k * n /\ forall i a j, 0 <= i < m -> zget arrays i = Ok a -> 0 <= j < n -> exists x, zget a j = Ok x /\ zget o (j * k + i) = Ok (Some x))
    k blk (fun out i => array <- zget arrays i ;; forM n out (fun out j => x <- zget array j ;; zset out (j * k + i) (Some x))) ltac:(lia)) as (o & E & L & G).
  - split; [exact Lb|]. intros; lia.
  - intros i o Hi (L & G). destruct (zget_in_range arrays i Hi) as (a & Ea). rewrite Ea. cbn [bind]. pose proof (HL a ltac:(eapply zget_In, Ea)) as La.
    destruct (Z.eq_dec n 0) as [En|En].
    + rewrite En in *. exists o. split; [reflexivity|]. split; [exact L|]. intros; lia.
    + destruct (zget_in_range a 0 ltac:(lia)) as (d & _).
      destruct (store_loop n (fun j => j * k + i) (zget a) Some (atd d a) o ltac:(lia)) as (o' & E' & L' & G1 & G2).
      * intros j Hj. split; [nia|apply atd_ok; lia].
      * intros j j' Hj Hj' Ej. nia.
      * exists o'. split; [exact E'|]. split; [lia|]. intros i' a' j Hi' Ea' Hj. destruct (Z.eq_dec i' i) as [->|Hne'].
        -- assert (a' = a) as -> by congruence. exists (atd d a j). split; [apply atd_ok; lia|apply G1, Hj].
        -- destruct (G i' a' j ltac:(lia) Ea' Hj) as (x & X1 & X2). exists x. split; [exact X1|]. rewrite G2; [exact X2|]. intros j' Hj'. apply strided_ne; lia.
  - rewrite E. cbn [bind]. destruct (freeze_total o) as (out & Eo & Lo & Go).
    { intros p Hp. rewrite L in Hp. pose proof (Z.div_mod p k ltac:(lia)) as Eq. pose proof (Z.mod_pos_bound p k ltac:(lia)) as Hm.
      assert (0 <= p / k < n) as Hq by (split; [apply Z.div_pos; lia|apply Z.div_lt_upper_bound; lia]). destruct (zget_in_range arrays (p mod k) Hm) as (a & Ea).
      destruct (G (p mod k) a (p / k) Hm Ea Hq) as (x & _ & X2). exists x. replace p with (p / k * k + p mod k) by lia. exact X2. }
    rewrite Eo. exists out. split; [reflexivity|]. split; [lia|]. intros i a Ea. pose proof (zget_bounds _ _ _ Ea) as Bi. fold k in Bi. pose proof (HL a ltac:(eapply zget_In, Ea)) as La.
    destruct (component_spec out k i n ltac:(lia) ltac:(lia) Bi) as (r & Er & Lr & Gr). rewrite Er. f_equal. apply list_eq_zget; [lia|]. intros j Hj. rewrite Gr by lia.
    destruct (G i a j Bi Ea ltac:(lia)) as (x & X1 & X2). rewrite X1. apply Go, X2.
Qed.
Lemma interleave_checks {A} (arrays : list (list A)) front a : zget arrays 0 = Ok front -> In a arrays -> zlen a <> zlen front -> interleave arrays = Abort.
Proof.
  intros E0 Hin Hne. destruct arrays as [|f rest]; [discriminate|]. assert (f = front) as -> by (vm_compute in E0; congruence). unfold interleave.
  assert (forall l, In a l -> mapM (fun a => check (zlen a =? zlen front)) l = Abort) as K.
  { induction l as [|b l IH]; [intros []|]. intros Hl. cbn [mapM]. destruct (Z.eqb_spec (zlen b) (zlen front)) as [E|E]; [|reflexivity]. cbn [check bind].
    destruct Hl as [->|Hl]; [congruence|]. rewrite (IH Hl). reflexivity. }
  rewrite (K _ Hin). reflexivity.
Qed.

(** ** coalesce: the loop over offsets always reads one array too many *)
Lemma coalesce_ub {A} (arrays : list (list A)) : arrays <> [] -> coalesce arrays = UB.
Proof.
  intros Hne. destruct arrays as [|f rest]; [congruence|]. set (arrays := f :: rest). unfold coalesce. change (f :: rest) with arrays. unfold arrays at 1. cbv beta iota.
  set (step := fun offsets i => p <- zget offsets (i - 1) ;; a <- zget arrays i ;; Ok (offsets ++ [p + zlen a])).
  assert (foldM step (zfromto 1 (zlen arrays + 1)) [0] = UB) as ->; [|reflexivity].
  assert (1 <= zlen arrays) as Hk by (unfold arrays; rewrite zlen_cons; pose proof (zlen_nonneg rest); lia).
  rewrite zfromto_snoc by lia. rewrite foldM_app.
  assert (forall m, 1 <= m <= zlen arrays -> exists o, foldM step (zfromto 1 m) [0] = Ok o /\ zlen o = m) as K.
  { intros m Hm. destruct Hm as [H1 H2]. revert H2. pattern m. apply Zlt_lower_bound_ind with (z := 1); [|exact H1]. clear m H1. intros m IH Hm H2.
    destruct (Z.eq_dec m 1) as [->|]; [exists [0]; split; reflexivity|]. destruct (IH (m - 1) ltac:(lia) ltac:(lia)) as (o & Eo & Lo).
    replace m with (m - 1 + 1) by lia. rewrite zfromto_snoc by lia. rewrite foldM_app, Eo. cbn [bind foldM]. unfold step at 1.
    destruct (zget_in_range o (m - 1 - 1) ltac:(lia)) as (p & ->). cbn [bind]. destruct (zget_in_range arrays (m - 1) ltac:(lia)) as (a & ->). cbn [bind].
    eexists. split; [reflexivity|]. rewrite zlen_app. change (zlen [p + zlen a]) with 1. lia. }
  destruct (K (zlen arrays) ltac:(lia)) as (o & -> & Lo). cbn [bind foldM]. unfold step. destruct (zget_in_range o (zlen arrays - 1) ltac:(lia)) as (p & ->). cbn [bind].
  assert (zget arrays (zlen arrays) = UB) as ->; [|reflexivity]. unfold zget. destruct (Z.ltb_spec (zlen arrays) 0); [lia|].
  unfold zlen. rewrite Nat2Z.id. rewrite (proj2 (nth_error_None arrays (length arrays))) by lia. reflexivity.
Qed.

(** ** ternary_each *)
Lemma ternary_spec {A} (cond : list Z) (a b : list A) width : 0 < width -> zlen a = zlen cond * width -> zlen b = zlen a -> zlen cond <> 0 ->
  exists c, ternary_each cond a b = Ok c /\ zlen c = zlen a /\
  forall i j m, zget cond i = Ok m -> 0 <= j < width -> zget c (i * width + j) = zget (if m =? 0 then b else a) (i * width + j).
Proof.
  intros Hw Ha Hb Hne. pose proof (zlen_nonneg cond) as Hc. unfold ternary_each, divide_no_remainder, check. rewrite Hb, Z.eqb_refl. cbn [bind].
  destruct (Z.eqb_spec (zlen cond) 0); [lia|]. cbn [negb bind]. rewrite Ha, (Z.mul_comm (zlen cond) width), Z.rem_mul, Z.quot_mul by lia. cbn [Z.eqb bind]. rewrite (Z.mul_comm width).
  set (g := fun i => c <- zget cond (Z.quot i width) ;; if negb (c =? 0) then zget a i else zget b i).
  assert (forall i, 0 <= i < zlen cond * width -> exists m, zget cond (Z.quot i width) = Ok m) as Hm.
  { intros i Hi. apply zget_in_range. rewrite Z.quot_div_nonneg by lia. split; [apply Z.div_pos; lia|apply Z.div_lt_upper_bound; lia]. }
  destruct (mapM_total g (zrange (zlen cond * width))) as (c & E).
  { intros i Hi. apply in_zrange in Hi. unfold g. destruct (Hm i Hi) as (m & ->). cbn [bind]. destruct (m =? 0); apply zget_in_range; lia. }
  exists c. split; [exact E|]. apply (tabulate_ok (zlen cond * width) g c ltac:(nia)) in E as [E1 E2]. split; [lia|].
  intros i j m Em Hj. pose proof (zget_bounds _ _ _ Em) as Bi. destruct (E2 (i * width + j) ltac:(nia)) as (x & Ex & Gx). rewrite Gx, <- Ex. unfold g.
  assert (Z.quot (i * width + j) width = i) as ->. { rewrite Z.quot_div_nonneg by nia. rewrite Z.add_comm, Z.div_add, Z.div_small by lia. lia. }
  rewrite Em. cbn [bind]. destruct (m =? 0); reflexivity.
Qed.
Lemma ternary_empty {A} : @ternary_each A [] [] [] = Abort.
Proof. reflexivity. Qed.
Lemma coalesce_nil {A} : @coalesce A [] = Ok [].
Proof. reflexivity. Qed.
Lemma coalesce_not_concat : ~ (forall arrays : list (list Z), coalesce arrays = Ok (concat arrays)).
Proof. intros H. specialize (H [[]]). vm_compute in H. discriminate. Qed.
