(** Which entities an edge collapse removes. *)
From Verif Require Import Prelude M_Array M_Map M_Align M_Template M_Graph M_Adj M_Coarsen S_Map S_Graph S_Adj S_Coarsen P_Array P_Map P_Map2 P_Fan P_Mark P_Graph P_Adj.
Local Open Scope Z_scope.

Lemma foldM_mapM {A B S} (g : A -> res B) (h : S -> B -> res S) l xs : mapM g l = Ok xs -> forall d, foldM (fun d a => x <- g a ;; h d x) l d = foldM h xs d.
Proof.
  revert xs. induction l as [|a l IH]; intros xs E d; cbn [mapM] in E; [injection E as <-; reflexivity|]. apply bind_ok in E as (x & Ex & E). apply bind_ok in E as (xs' & Exs & E). injection E as <-.
  cbn [foldM]. rewrite Ex. cbn [bind]. destruct (h d x); cbn [bind]; auto.
Qed.
Lemma foldM_concat {A B S} (G : A -> res (list B)) (h : S -> B -> res S) l YS : mapM G l = Ok YS -> forall d, foldM (fun d a => ys <- G a ;; foldM h ys d) l d = foldM h (concat YS) d.
Proof.
  intros E d. rewrite (foldM_mapM G (fun d ys => foldM h ys d) l YS E). clear E. revert d. induction YS as [|y YS IH]; intros d; [reflexivity|]. cbn [foldM concat]. rewrite foldM_app. destruct (foldM h y d); cbn [bind]; auto.
Qed.

(** ** templates *)
Definition t1_check (dim : Z) : bool := forallb (fun w => forallb (fun r => (0 <=? simplex_down_template dim 1 w r) && (simplex_down_template dim 1 w r <=? dim)) [0; 1]) (zrange (simplex_degree dim 1)).
Definition t2_check (dim : Z) : bool := forallb (fun v => let o := simplex_opposite_template dim 0 v in (0 <=? o) && (o <=? dim) &&
  forallb (fun j => negb (simplex_down_template dim (dim - 1) o j =? v)) (zrange dim) &&
  forallb (fun k => (k =? o) || existsb (fun j => simplex_down_template dim (dim - 1) k j =? v) (zrange dim)) (zrange (dim + 1))) (zrange (dim + 1)).
Lemma t1_all : forallb t1_check [2; 3] = true. Proof. vm_compute. reflexivity. Qed.
Lemma t2_all : forallb t2_check [2; 3] = true. Proof. vm_compute. reflexivity. Qed.
Lemma dim_cases dim : 2 <= dim <= 3 -> In dim [2; 3].
Proof. intros. cbn [In]. lia. Qed.
Lemma t1 dim w r : 2 <= dim <= 3 -> 0 <= w < simplex_degree dim 1 -> 0 <= r < 2 -> 0 <= simplex_down_template dim 1 w r <= dim.
Proof.
  intros Hd Hw Hr. pose proof t1_all as K. rewrite forallb_forall in K. specialize (K dim (dim_cases dim Hd)). unfold t1_check in K. rewrite forallb_forall in K. specialize (K w (proj2 (in_zrange _ _) Hw)). rewrite forallb_forall in K.
  assert (In r [0; 1]) as Hi by (cbn [In]; lia). specialize (K r Hi). lia.
Qed.
Lemma t2 dim v : 2 <= dim <= 3 -> 0 <= v <= dim -> let o := simplex_opposite_template dim 0 v in 0 <= o <= dim /\ (forall j, 0 <= j < dim -> simplex_down_template dim (dim - 1) o j <> v) /\
  forall k, 0 <= k <= dim -> k <> o -> exists j, 0 <= j < dim /\ simplex_down_template dim (dim - 1) k j = v.
Proof.
  intros Hd Hv o. pose proof t2_all as K. rewrite forallb_forall in K. specialize (K dim (dim_cases dim Hd)). unfold t2_check in K. rewrite forallb_forall in K. assert (In v (zrange (dim + 1))) as Hi by (apply in_zrange; lia). specialize (K v Hi). cbv zeta in K. fold o in K.
  rewrite !andb_true_iff in K. destruct K as [[[K1 K2] K3] K4]. split; [lia|]. split.
  - intros j Hj. rewrite forallb_forall in K3. specialize (K3 j (proj2 (in_zrange _ _) Hj)). apply negb_true_iff in K3. lia.
  - intros k Hk Hne. rewrite forallb_forall in K4. assert (In k (zrange (dim + 1))) as Hki by (apply in_zrange; lia). specialize (K4 k Hki). apply orb_true_iff in K4 as [K4|K4]; [lia|]. apply existsb_exists in K4 as (j & Hj & E). apply in_zrange in Hj. exists j. split; [exact Hj | lia].
Qed.
Lemma down_range dim k j : 2 <= dim <= 3 -> 0 <= k <= dim -> 0 <= j < dim -> 0 <= simplex_down_template dim (dim - 1) k j <= dim.
Proof.
  intros Hd Hk Hj. assert (forallb (fun dim => forallb (fun k => forallb (fun j => (0 <=? simplex_down_template dim (dim - 1) k j) && (simplex_down_template dim (dim - 1) k j <=? dim)) (zrange dim)) (zrange (dim + 1))) [2; 3] = true) as K by (vm_compute; reflexivity).
  rewrite forallb_forall in K. specialize (K dim (dim_cases dim Hd)). rewrite forallb_forall in K. assert (In k (zrange (dim + 1))) as Hki by (apply in_zrange; lia). specialize (K k Hki). rewrite forallb_forall in K. specialize (K j (proj2 (in_zrange _ _) Hj)). lia.
Qed.
Lemma degree_side dim : 2 <= dim <= 3 -> simplex_degree dim (dim - 1) = dim + 1.
Proof. intros H. destruct (dim_cases dim H) as [<-|[<-|[]]]; reflexivity. Qed.

(** ** marking pairs *)
Definition marks_set (l l' ps : list Z) : Prop := zlen l' = zlen l /\ forall x, zget l' x = if in_dec Z.eq_dec x ps then Ok 1 else zget l x.
Lemma set_pairs (ps : list (Z * Z)) dc ds : (forall p, In p ps -> 0 <= fst p < zlen dc /\ 0 <= snd p < zlen ds) ->
  exists dc' ds', foldM (fun d p => c <- zset (fst d) (fst p) 1 ;; s <- zset (snd d) (snd p) 1 ;; Ok (c, s)) ps (dc, ds) = Ok (dc', ds') /\
  marks_set dc dc' (map fst ps) /\ marks_set ds ds' (map snd ps).
Proof.
  intros H. destruct (value_scatter 1 (map fst ps) dc) as (dc' & E1 & L1 & A1 & B1). { intros k Hk. apply in_map_iff in Hk as (p & <- & Hp). apply H, Hp. }
  destruct (value_scatter 1 (map snd ps) ds) as (ds' & E2 & L2 & A2 & B2). { intros k Hk. apply in_map_iff in Hk as (p & <- & Hp). apply H, Hp. }
  exists dc', ds'. split; [|split; (split; [assumption|]; intros x; destruct (in_dec Z.eq_dec x _); auto)].
  apply (foldM_pair (fun d (p : Z * Z) => zset d (fst p) 1) (fun d (p : Z * Z) => zset d (snd p) 1)).
  - rewrite <- E1. clear. revert dc. induction ps as [|p ps IH]; intros d; [reflexivity|]. cbn [map foldM]. destruct (zset d (fst p) 1); cbn [bind]; auto.
  - rewrite <- E2. clear. revert ds. induction ps as [|p ps IH]; intros d; [reflexivity|]. cbn [map foldM]. destruct (zset d (snd p) 1); cbn [bind]; auto.
Qed.

Section dim.
Variables (dim nc ns ne : Z) (ev2v cv2v sv2v cs2s rails dirs : list Z) (e2c : adj).
Hypothesis Hdim : 2 <= dim <= 3.
Hypothesis Hup : edge_up_ok dim nc ev2v cv2v e2c.
Hypothesis Hne : zlen (adj_a2ab e2c) = ne + 1.
Hypothesis Hsides : sides_ok dim nc ns cv2v sv2v cs2s.
Hypothesis Hdist : forall c, 0 <= c < nc -> distinct_verts dim cv2v c.
Hypothesis Hrails : rails_ok ne ev2v rails dirs.

Definition rail_pairs (codes : list Z) (rail : Z) : res (list (Z * Z)) :=
  e <- zget rails rail ;; dir <- zget dirs rail ;; lo <- zget (adj_a2ab e2c) e ;; hi <- zget (adj_a2ab e2c) (e + 1) ;;
  mapM (dead_pair dim (adj_ab2b e2c) codes cs2s (1 - dir)) (zfromto lo hi).

Lemma pair_ok codes e v0 v1 dir ec : adj_codes e2c = Some codes -> 0 <= e < ne -> zget ev2v (e * 2 + 0) = Ok v0 -> zget ev2v (e * 2 + 1) = Ok v1 -> (dir = 0 \/ dir = 1) -> in_group (adj_a2ab e2c) e ec ->
  let onto := if dir =? 0 then v1 else v0 in
  exists c s, dead_pair dim (adj_ab2b e2c) codes cs2s (1 - dir) ec = Ok (c, s) /\ zget (adj_ab2b e2c) ec = Ok c /\ 0 <= c < nc /\ 0 <= s < ns /\ has_vert dim cv2v c v0 /\ has_vert dim cv2v c v1 /\
    side_of dim cs2s c s /\ ~ has_vert (dim - 1) sv2v s onto /\ forall s', side_of dim cs2s c s' -> ~ has_vert (dim - 1) sv2v s' onto -> s' = s.
Proof.
  intros Ecodes He E0 E1 Hdir Hg onto. destruct Hup as (W & codes' & Ec' & Hu). assert (codes' = codes) as -> by congruence.
  assert (0 <= e < zlen (adj_a2ab e2c) - 1) as He' by lia.
  destruct (Hu e v0 v1 He' E0 E1) as [Ht Hc]. destruct (Hc ec Hg) as (c & code & A1 & A2 & A3 & A4 & A5 & A6).
  assert (0 <= c < nc /\ has_vert dim cv2v c v0 /\ has_vert dim cv2v c v1) as (Hcr & V0 & V1).
  { destruct (wf_targets (mk_graph (adj_a2ab e2c) (adj_ab2b e2c)) e) as (ts & Ets). { destruct W as (Wa & Wb & _). split; [exact Wa | exact Wb]. } { unfold nnodes. cbn [a2ab]. exact He'. }
    apply (Ht ts Ets). unfold adj_targets in *. apply targets_split in Ets as (lo & hi & B1 & B2 & B3). cbn [a2ab ab2b] in *. destruct Hg as (lo' & hi' & G1 & G2 & G3). assert (lo' = lo) as -> by congruence. assert (hi' = hi) as -> by congruence.
    destruct (mapM_in _ _ _ ec B3) as (y & Ey & Hy); [apply in_zfromto; exact G3|]. congruence. }
  set (pos := simplex_down_template dim 1 (code_which_down code) (Z.lxor (code_rotation code) (1 - dir))).
  assert (0 <= pos <= dim) as Hpos. { apply t1; [exact Hdim | exact A3 |]. assert (code_rotation code = 0 \/ code_rotation code = 1) as [-> | ->] by lia; destruct Hdir as [-> | ->]; cbn; lia. }
  assert (zget cv2v (c * (dim + 1) + pos) = Ok onto) as Eonto. { unfold pos, onto. destruct Hdir as [-> | ->]; cbn [Z.eqb]; assumption. }
  destruct (t2 dim pos Hdim Hpos) as (T1 & T2 & T3). set (o := simplex_opposite_template dim 0 pos) in *.
  destruct (Hsides c o Hcr T1) as (s & Es & Hs & Hv). exists c, s. split.
  { unfold dead_pair. rewrite A1. cbn [bind]. rewrite A2. cbn [bind]. rewrite degree_side by exact Hdim. fold pos. fold o. rewrite Es. reflexivity. }
  split; [exact A1|]. split; [exact Hcr|]. split; [exact Hs|]. split; [exact V0|]. split; [exact V1|]. split; [exists o; auto|]. split.
  - intros H. apply Hv in H as (j & Hj & Ej). apply (T2 j Hj). apply (Hdist c Hcr _ _ onto); [apply down_range; assumption | exact Hpos | exact Ej | exact Eonto].
  - intros s' (k & Hk & Ek) Hn. destruct (Z.eq_dec k o) as [->|N]; [congruence|]. destruct (T3 k Hk N) as (j & Hj & Ej). destruct (Hsides c k Hcr Hk) as (s2 & Es2 & _ & Hv2). assert (s2 = s') as -> by congruence. exfalso. apply Hn, Hv2. exists j. split; [exact Hj|]. rewrite Ej. exact Eonto.
Qed.

Lemma rail_pairs_ok codes rail : adj_codes e2c = Some codes -> 0 <= rail < zlen rails -> exists ps e dir v0 v1, rail_pairs codes rail = Ok ps /\
  zget rails rail = Ok e /\ zget dirs rail = Ok dir /\ (dir = 0 \/ dir = 1) /\ 0 <= e < ne /\ zget ev2v (e * 2 + 0) = Ok v0 /\ zget ev2v (e * 2 + 1) = Ok v1 /\
  let onto := if dir =? 0 then v1 else v0 in
  forall c s, In (c, s) ps <-> 0 <= c < nc /\ has_vert dim cv2v c v0 /\ has_vert dim cv2v c v1 /\ side_of dim cs2s c s /\ ~ has_vert (dim - 1) sv2v s onto /\ 0 <= s < ns.
Proof.
  intros Ecodes Hr. destruct Hrails as (R1 & R2 & R3 & R4). destruct (zget_in_range rails rail Hr) as (e & Ee). destruct (zget_in_range dirs rail) as (dir & Ed); [lia|].
  pose proof (R3 e (zget_In _ _ _ Ee)) as He. pose proof (R4 dir (zget_In _ _ _ Ed)) as Hd. destruct (zget_in_range ev2v (e * 2 + 0)) as (v0 & E0); [lia|]. destruct (zget_in_range ev2v (e * 2 + 1)) as (v1 & E1); [lia|].
  destruct (zget_in_range (adj_a2ab e2c) e) as (lo & El); [lia|]. destruct (zget_in_range (adj_a2ab e2c) (e + 1)) as (hi & Eh); [lia|].
  destruct (P_Graph.mapM_total (dead_pair dim (adj_ab2b e2c) codes cs2s (1 - dir)) (zfromto lo hi)) as (ps & Eps).
  { intros ec Hec. apply in_zfromto in Hec. destruct (pair_ok codes e v0 v1 dir ec Ecodes He E0 E1 Hd) as (c & s & E & _); [exists lo, hi; auto | eauto]. }
  exists ps, e, dir, v0, v1. split. { unfold rail_pairs. rewrite Ee. cbn [bind]. rewrite Ed. cbn [bind]. rewrite El. cbn [bind]. rewrite Eh. cbn [bind]. exact Eps. }
  do 6 (split; [assumption|]). cbv zeta. intros c s. split.
  - intros Hin. destruct (mapM_in_inv _ _ _ _ Eps Hin) as (ec & E & Hec). apply in_zfromto in Hec. destruct (pair_ok codes e v0 v1 dir ec Ecodes He E0 E1 Hd) as (c' & s' & E' & _ & B1 & B2 & B3 & B4 & B5 & B6 & _); [exists lo, hi; auto|]. rewrite E' in E. injection E as <- <-. tauto.
  - intros (Hc & V0 & V1 & Hs & Hn & _). destruct Hup as (W & codes' & Ec' & Hu). assert (0 <= e < zlen (adj_a2ab e2c) - 1) as He' by lia. destruct (Hu e v0 v1 He' E0 E1) as [Ht _].
    destruct (wf_targets (mk_graph (adj_a2ab e2c) (adj_ab2b e2c)) e) as (ts & Ets). { destruct W as (Wa & Wb & _). split; [exact Wa | exact Wb]. } { unfold nnodes. cbn [a2ab]. exact He'. }
    pose proof (proj2 (Ht ts Ets c) (conj Hc (conj V0 V1))) as Hin. apply targets_split in Ets as (lo' & hi' & B1 & B2 & B3). cbn [a2ab ab2b] in *. assert (lo' = lo) as -> by congruence. assert (hi' = hi) as -> by congruence.
    destruct (mapM_in_inv _ _ _ _ B3 Hin) as (ec & Eec & Hec). destruct (pair_ok codes e v0 v1 dir ec Ecodes He E0 E1 Hd) as (c' & s' & E' & Ec2 & _ & _ & _ & _ & _ & _ & Hu'); [exists lo, hi; apply in_zfromto in Hec; auto|].
    assert (c' = c) as -> by congruence. rewrite (Hu' s Hs Hn). destruct (mapM_in _ _ _ _ Eps Hec) as (y & Ey & Hy). congruence.
Qed.

Lemma mark_dead_dim_ok dc ds : zlen dc = nc -> zlen ds = ns -> exists dc' ds', mark_dead_dim e2c cs2s rails dirs dim (dc, ds) = Ok (dc', ds') /\ zlen dc' = nc /\ zlen ds' = ns /\
  (forall x, zget dc' x = Ok 1 <-> zget dc x = Ok 1 \/ 0 <= x < nc /\ spans dim cv2v ev2v rails dirs x) /\
  (forall s, zget ds' s = Ok 1 <-> zget ds s = Ok 1 \/ merges dim nc cv2v sv2v cs2s ev2v rails dirs s) /\
  (forall m, In m dc' -> In m dc \/ m = 1) /\ (forall m, In m ds' -> In m ds \/ m = 1).
Proof.
  intros Ldc Lds. pose proof Hup as (_ & codes & Ecodes & _). destruct (P_Graph.mapM_total (rail_pairs codes) (zrange (zlen rails))) as (YS & EYS).
  { intros r Hr. apply in_zrange in Hr. destruct (rail_pairs_ok codes r Ecodes Hr) as (ps & ? & ? & ? & ? & E & _). eauto. }
  assert (forall c s, In (c, s) (concat YS) <-> exists col onto, collapses ev2v rails dirs col onto /\ 0 <= c < nc /\ has_vert dim cv2v c col /\ has_vert dim cv2v c onto /\ side_of dim cs2s c s /\ ~ has_vert (dim - 1) sv2v s onto /\ 0 <= s < ns) as HIn.
  { intros c s. rewrite in_concat. split.
    - intros (ps & Hps & Hin). destruct (mapM_in_inv _ _ _ _ EYS Hps) as (r & Er & Hr). apply in_zrange in Hr. destruct (rail_pairs_ok codes r Ecodes Hr) as (ps' & e & dir & v0 & v1 & E' & Ee & Ed & Hd & _ & E0 & E1 & Hiff). rewrite E' in Er. injection Er as <-. cbv zeta in Hiff. apply Hiff in Hin.
      destruct Hd as [-> | ->]; cbn [Z.eqb] in Hin; [exists v0, v1 | exists v1, v0]; (split; [exists r, e; eexists; split; [exact Ee|]; split; [exact Ed|]; split; [auto|]; split; assumption | tauto]).
    - intros (col & onto & (r & e & dir & Ee & Ed & Hd & E0 & E1) & Hc & V0 & V1 & Hs & Hn & Hsr). pose proof (zget_bounds _ _ _ Ee) as Hr. destruct (rail_pairs_ok codes r Ecodes Hr) as (ps' & e' & dir' & v0 & v1 & E' & Ee' & Ed' & _ & _ & E0' & E1' & Hiff).
      assert (e' = e) as -> by congruence. assert (dir' = dir) as -> by congruence. destruct (mapM_in _ _ _ _ EYS (proj2 (in_zrange _ _) Hr)) as (y & Ey & Hy). exists y. split; [exact Hy|]. assert (y = ps') as -> by congruence. apply Hiff.
      destruct Hd as [-> | ->]; cbn [Z.eqb] in *; [replace (1 - 0) with 1 in E1 by lia | replace (1 - 1) with 0 in E1 by lia].
      + assert (v0 = col) as -> by congruence. assert (v1 = onto) as -> by congruence. auto 10.
      + assert (v1 = col) as -> by congruence. assert (v0 = onto) as -> by congruence. auto 10. }
  destruct (set_pairs (concat YS) dc ds) as (dc' & ds' & E & [L1 M1] & [L2 M2]). { intros [c s] Hin. apply HIn in Hin as (? & ? & _ & B1 & _ & _ & _ & _ & B2). cbn [fst snd]. lia. }
  exists dc', ds'. split.
  { unfold mark_dead_dim. rewrite Ecodes. cbn [bind]. unfold forM. rewrite <- E, <- (foldM_concat _ _ _ _ EYS). apply foldM_ext'. intros d r Hr. apply in_zrange in Hr. destruct (rail_pairs_ok codes r Ecodes Hr) as (ps & e & dir & v0 & v1 & E' & _). rewrite E'. cbn [bind]. unfold rail_pairs in E'.
    apply bind_ok in E' as (e' & -> & E'). cbn [bind]. apply bind_ok in E' as (dir' & -> & E'). cbn [bind]. apply bind_ok in E' as (lo & -> & E'). cbn [bind]. apply bind_ok in E' as (hi & -> & E'). cbn [bind]. apply foldM_mapM, E'. }
  split; [lia|]. split; [lia|].
  assert (forall l l' ps, marks_set l l' ps -> (forall x, zget l' x = Ok 1 <-> zget l x = Ok 1 \/ In x ps) /\ forall m, In m l' -> In m l \/ m = 1) as MS.
  { clear. intros l l' ps [L M]. split.
    - intros x. rewrite M. destruct (in_dec Z.eq_dec x ps); tauto.
    - intros m Hm. apply In_zget in Hm as (i & Ei). rewrite M in Ei. destruct (in_dec Z.eq_dec i ps); [right; congruence | left; eapply zget_In, Ei]. }
  destruct (MS _ _ _ (conj L1 M1)) as [A1 A2]. destruct (MS _ _ _ (conj L2 M2)) as [B1 B2]. split; [|split; [|auto]].
  - intros x. rewrite A1. apply or_iff_compat_l. split.
    + intros Hx. apply in_map_iff in Hx as ([c s] & <- & Hin). apply HIn in Hin as (col & onto & C & Hc & V0 & V1 & _). split; [exact Hc|]. exists col, onto. auto.
    + intros (Hx & col & onto & C & V0 & V1). pose proof C as (r & e & dir & Ee & Ed & Hd & E0 & E1). pose proof (zget_bounds _ _ _ Ee) as Hr. destruct (rail_pairs_ok codes r Ecodes Hr) as (ps' & e' & dir' & v0 & v1 & _ & Ee' & Ed' & _ & He & E0' & E1' & _).
      assert (e' = e) as -> by congruence. assert (dir' = dir) as -> by congruence. pose proof Hup as (W & codes' & _ & Hu). assert (0 <= e < zlen (adj_a2ab e2c) - 1) as He' by lia. destruct (Hu e v0 v1 He' E0' E1') as [Ht _].
      assert (has_vert dim cv2v x v0 /\ has_vert dim cv2v x v1) as [W0 W1]. { destruct Hd as [-> | ->]; [replace (1 - 0) with 1 in E1 by lia | replace (1 - 1) with 0 in E1 by lia]; split; congruence. }
      destruct (wf_targets (mk_graph (adj_a2ab e2c) (adj_ab2b e2c)) e) as (ts & Ets). { destruct W as (Wa & Wb & _). split; [exact Wa | exact Wb]. } { unfold nnodes. cbn [a2ab]. exact He'. }
      pose proof (proj2 (Ht ts Ets x) (conj Hx (conj W0 W1))) as Hin. apply targets_split in Ets as (lo' & hi' & C1 & C2 & C3). cbn [a2ab ab2b] in *. destruct (mapM_in_inv _ _ _ _ C3 Hin) as (ec & Eec & Hec). apply in_zfromto in Hec.
      destruct (pair_ok codes e v0 v1 dir ec Ecodes He E0' E1' Hd) as (c' & s' & _ & Ec2 & _ & Hsr & _ & _ & S1 & S2 & _); [exists lo', hi'; auto|]. assert (c' = x) as -> by congruence.
      apply in_map_iff. exists (x, s'). split; [reflexivity|]. apply HIn. exists col, onto. do 4 (split; [assumption|]). split; [exact S1|]. split; [|exact Hsr].
      assert ((if dir =? 0 then v1 else v0) = onto) as <-; [|exact S2]. destruct Hd as [-> | ->]; cbn [Z.eqb]; [replace (1 - 0) with 1 in E1 by lia | replace (1 - 1) with 0 in E1 by lia]; congruence.
  - intros s. rewrite B1. apply or_iff_compat_l. split.
    + intros Hx. apply in_map_iff in Hx as ([c s'] & <- & Hin). apply HIn in Hin as (col & onto & C & Hc & V0 & V1 & S1 & S2 & _). exists c, col, onto. auto 10.
    + intros (c & col & onto & Hc & C & V0 & V1 & S1 & S2). apply in_map_iff. exists (c, s). split; [reflexivity|]. apply HIn. exists col, onto. do 6 (split; [assumption|]). destruct S1 as (k & Hk & Ek). destruct (Hsides c k Hc Hk) as (s' & Es' & Hr & _). congruence.
Qed.
End dim.

(** ** all dimensions *)
Lemma mark_dead_ents_ok mesh_dim nents verts edge_up down rails dirs : simplex_mesh mesh_dim nents verts edge_up down -> rails_ok (nents 1) (verts 1) rails dirs ->
  exists marks, mark_dead_ents mesh_dim nents edge_up down rails dirs = Ok marks /\
  forall d, 1 <= d <= mesh_dim -> exists m, zget marks d = Ok m /\ zlen m = nents d /\ (forall b, In b m -> b = 0 \/ b = 1) /\
  forall x, zget m x = Ok 1 <-> dead_spec mesh_dim nents verts down rails dirs d x.
Proof.
  intros (HD & Hn & Hm) HR. destruct (mark_image_spec rails (nents 1) (Hn 1)) as (w1 & E1 & L1 & G1); [apply HR|].
  assert (forall x, zget w1 x = Ok 1 <-> In x rails) as I1.
  { intros x. split; [intros E; pose proof (zget_bounds _ _ _ E) as B; rewrite L1 in B; rewrite G1 in E by exact B; destruct (in_dec Z.eq_dec x rails); [assumption | congruence]|].
    intros Hi. rewrite G1 by (apply HR, Hi). destruct (in_dec Z.eq_dec x rails); [reflexivity | contradiction]. }
  assert (forall b, In b w1 -> b = 0 \/ b = 1) as V1. { intros b Hb. apply In_zget in Hb as (i & Ei). pose proof (zget_bounds _ _ _ Ei) as B. rewrite L1 in B. rewrite G1 in Ei by exact B. destruct (in_dec Z.eq_dec i rails); injection Ei as <-; auto. }
  assert (forall n x, ~ zget (repeat 0 n) x = Ok 1) as N0. { intros n x E. apply zget_In in E. apply repeat_spec in E. discriminate. }
  assert (forall n b, In b (repeat 0 n) -> b = 0 \/ b = 1) as Z0. { intros n b Hb. apply repeat_spec in Hb. auto. }
  unfold mark_dead_ents. rewrite E1. cbn [bind mapM].
  assert (mesh_dim = 1 \/ mesh_dim = 2 \/ mesh_dim = 3) as [->|[->| ->]] by lia.
  - change (2 <=? 1) with false. change (3 <=? 1) with false. cbn [bind]. change (rev (zfromto 2 (1 + 1))) with (@nil Z). cbn [foldM]. eexists. split; [reflexivity|]. intros d Hd. assert (d = 1) as -> by lia. exists w1. do 3 (split; [assumption || reflexivity|]). intros x. rewrite I1. unfold dead_spec. change (1 =? 1) with true. cbv iota. split; [left; assumption|]. intros [H|[H _]]; [exact H | lia].
  - change (2 <=? 2) with true. change (3 <=? 2) with false. cbv iota. rewrite filled_ok by apply Hn. cbn [bind]. change (rev (zfromto 2 (2 + 1))) with [2]. cbn [foldM].
    change (zget [[]; w1; repeat 0 (Z.to_nat (nents 2)); []] 2) with (Ok (repeat 0 (Z.to_nat (nents 2)))). change (zget [[]; w1; repeat 0 (Z.to_nat (nents 2)); []] (2 - 1)) with (Ok w1). cbn [bind].
    destruct (Hm 2) as (U2 & LU2 & S2 & D2); [lia|].
    destruct (mark_dead_dim_ok 2 (nents 2) (nents (2 - 1)) (nents 1) (verts 1) (verts 2) (verts (2 - 1)) (down 2) rails dirs (edge_up 2)) with (dc := repeat 0 (Z.to_nat (nents 2))) (ds := w1) as (dc & ds & E & Lc & Ls & A & B & Vc & Vs); try assumption; [lia | rewrite zlen_repeat; specialize (Hn 2); lia |].
    rewrite E. cbn [bind fst snd]. change (zset [[]; w1; repeat 0 (Z.to_nat (nents 2)); []] 2 dc) with (Ok [[]; w1; dc; []]). cbn [bind]. change (zset [[]; w1; dc; []] (2 - 1) ds) with (Ok [[]; ds; dc; []]). cbn [bind]. eexists. split; [reflexivity|].
    intros d Hd. assert (d = 1 \/ d = 2) as [-> | ->] by lia.
    + exists ds. split; [reflexivity|]. split; [exact Ls|]. split; [intros b Hb; destruct (Vs b Hb); auto|]. intros x. rewrite B, I1. unfold dead_spec. change (1 =? 1) with true. cbv iota. apply or_iff_compat_l. split; [intros H; split; [lia | exact H] | intros [_ H]; exact H].
    + exists dc. split; [reflexivity|]. split; [exact Lc|]. split; [intros b Hb; destruct (Vc b Hb) as [K|K]; [eapply Z0, K | auto]|]. intros x. rewrite A. unfold dead_spec. change (2 =? 1) with false. cbv iota. split; [intros [K|K]; [exfalso; eapply N0, K | left; exact K] | intros [K|[K _]]; [right; exact K | lia]].
  - change (2 <=? 3) with true. change (3 <=? 3) with true. cbv iota. rewrite !filled_ok by apply Hn. cbn [bind]. change (rev (zfromto 2 (3 + 1))) with [3; 2]. cbn [foldM].
    set (z2 := repeat 0 (Z.to_nat (nents 2))). set (z3 := repeat 0 (Z.to_nat (nents 3))). change (zget [[]; w1; z2; z3] 3) with (Ok z3). change (zget [[]; w1; z2; z3] (3 - 1)) with (Ok z2). cbn [bind].
    destruct (Hm 3) as (U3 & LU3 & S3 & D3); [lia|]. destruct (Hm 2) as (U2 & LU2 & S2 & D2); [lia|].
    destruct (mark_dead_dim_ok 3 (nents 3) (nents (3 - 1)) (nents 1) (verts 1) (verts 3) (verts (3 - 1)) (down 3) rails dirs (edge_up 3)) with (dc := z3) (ds := z2) as (dc & ds & E & Lc & Ls & A & B & Vc & Vs); try assumption; try lia; [unfold z3; rewrite zlen_repeat; specialize (Hn 3); lia | unfold z2; rewrite zlen_repeat; change (3 - 1) with 2; specialize (Hn 2); lia |].
    rewrite E. cbn [bind fst snd]. change (zset [[]; w1; z2; z3] 3 dc) with (Ok [[]; w1; z2; dc]). cbn [bind]. change (zset [[]; w1; z2; dc] (3 - 1) ds) with (Ok [[]; w1; ds; dc]). cbn [bind].
    change (zget [[]; w1; ds; dc] 2) with (Ok ds). change (zget [[]; w1; ds; dc] (2 - 1)) with (Ok w1). cbn [bind].
    destruct (mark_dead_dim_ok 2 (nents 2) (nents (2 - 1)) (nents 1) (verts 1) (verts 2) (verts (2 - 1)) (down 2) rails dirs (edge_up 2)) with (dc := ds) (ds := w1) as (dc2 & ds2 & E2 & Lc2 & Ls2 & A2 & B2 & Vc2 & Vs2); try assumption; try lia.
    rewrite E2. cbn [bind fst snd]. change (zset [[]; w1; ds; dc] 2 dc2) with (Ok [[]; w1; dc2; dc]). cbn [bind]. change (zset [[]; w1; dc2; dc] (2 - 1) ds2) with (Ok [[]; ds2; dc2; dc]). cbn [bind]. eexists. split; [reflexivity|].
    intros d Hd. assert (d = 1 \/ d = 2 \/ d = 3) as [->|[->| ->]] by lia.
    + exists ds2. split; [reflexivity|]. split; [exact Ls2|]. split; [intros b Hb; destruct (Vs2 b Hb); auto|]. intros x. rewrite B2, I1. unfold dead_spec. change (1 =? 1) with true. cbv iota. apply or_iff_compat_l. split; [intros H; split; [lia | exact H] | intros [_ H]; exact H].
    + exists dc2. split; [reflexivity|]. split; [exact Lc2|]. split; [intros b Hb; destruct (Vc2 b Hb) as [K|K]; [destruct (Vs b K) as [K2|K2]; [eapply Z0, K2 | auto] | auto]|]. intros x. rewrite A2, B. unfold dead_spec. change (2 =? 1) with false. cbv iota. change (2 + 1) with 3. split.
      * intros [[K|K]|K]; [exfalso; eapply N0, K | right; split; [lia | exact K] | left; exact K].
      * intros [K|[_ K]]; [right; exact K | left; right; exact K].
    + exists dc. split; [reflexivity|]. split; [exact Lc|]. split; [intros b Hb; destruct (Vc b Hb) as [K|K]; [eapply Z0, K | auto]|]. intros x. rewrite A. unfold dead_spec. change (3 =? 1) with false. cbv iota. split; [intros [K|K]; [exfalso; eapply N0, K | left; exact K] | intros [K|[K _]]; [right; exact K | lia]].
Qed.
