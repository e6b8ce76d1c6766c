From Verif Require Import Prelude M_Array M_Par M_Scan S_Scan M_Sort S_Sort M_Map S_Map M_Dist S_Dist M_Comm M_Linpart S_Linpart M_Owners S_Owners P_Array P_Scan P_Map P_Map2 P_Fan P_Comm P_Linpart P_Bipart P_Dist P_Dist2 P_Dist3 P_Dist4 P_Dist5 P_Dist6 P_Link P_Owners.
Local Open Scope Z_scope.

Lemma NoDup_app_intro {A} (l m : list A) : NoDup l -> NoDup m -> (forall x, In x l -> ~ In x m) -> NoDup (l ++ m).
Proof.
  intros Hl Hm H. induction Hl as [|x l Hx Hl IH]; [exact Hm|]. cbn. constructor.
  - intros I. apply in_app_or in I as [I|I]; [auto|]. apply (H x); [left; reflexivity|exact I].
  - apply IH. intros y Hy. apply H. right; exact Hy.
Qed.

(** ** owners from global numbers *)
Section globals.
Context (inv : Z -> list Z -> Z -> res (list Z * list Z)) (globals : list (list Z)).
Hypothesis Hinv : inverter inv.
Hypothesis Hpos : 0 < zlen globals <= i32_max + 1.
Hypothesis Hg : Forall (Forall (fun g => 0 <= g)) globals.

Lemma linear_dist : exists ds ranks idxs nroots, copies_to_linear_owners inv globals = Ok ds /\ make_dist inv ranks idxs nroots = Ok ds /\
  ranks_exist ranks /\ zlen ranks = zlen globals /\ addressed ranks idxs nroots /\
  (forall s a b, zget globals s = Ok a -> zget ranks s = Ok b -> zlen b = zlen a) /\
  (forall s i t j, same_entity ranks idxs s i t j <-> exists g, goes_to globals s i g /\ goes_to globals t j g).
Proof.
  unfold copies_to_linear_owners. set (n := find_total_globals globals). set (p := zlen globals).
  destruct (find_total_spec globals Hg) as (Hn & Hlt & _). fold n in Hn, Hlt.
  rewrite (mapM_map_ok _ (part_size n p)) by (intros; apply linear_partition_size_spec; lia). cbn [bind].
  destruct (mapM_rel (fun g => globals_to_linear_owners g n p) globals (fun s a o => Forall2 (fun g q => zget (laid_out n p) g = Ok q) a o)) as (owners & Eo & Lo & Go).
  { intros s a Ha. apply zget_In in Ha. apply linear_owners_laid_out; [lia|lia|]. apply Forall_forall. intros g Ig. split; [|eapply Hlt; eauto].
    rewrite Forall_forall in Hg. specialize (Hg a Ha). rewrite Forall_forall in Hg. auto. }
  rewrite Eo. cbn [bind]. set (ranks := map (map fst) owners). set (idxs := map (map snd) owners). set (nroots := map (part_size n p) (zrange p)).
  assert (zlen ranks = p) as Lr by (unfold ranks; rewrite zlen_map; exact Lo).
  assert (zlen idxs = p) as Li by (unfold idxs; rewrite zlen_map; exact Lo).
  assert (zlen nroots = p) as Ln by (unfold nroots; rewrite zlen_map, zlen_zrange by lia; reflexivity).
  assert (forall s a o, zget globals s = Ok a -> zget owners s = Ok o -> zlen o = zlen a) as Lz.
  { intros s a o Ha Hos. specialize (Go s a o Ha Hos). apply Forall2_len in Go. unfold zlen. lia. }
  assert (forall s i r, goes_to ranks s i r -> exists g q, goes_to globals s i g /\ goes_to idxs s i q /\ zget (laid_out n p) g = Ok (r, q)) as K1.
  { intros s i r (a & Ha & Hi). apply zget_map_inv in Ha as (o & Hos & ->). apply zget_map_inv in Hi as ([r' q] & Hq & ->). cbn.
    destruct (zget_in_range globals s) as (gs & Hgs); [rewrite <- Lo; eapply zget_bounds; eauto|].
    pose proof (Lz s gs o Hgs Hos) as Lz'. destruct (zget_in_range gs i) as (g & Hgi); [rewrite <- Lz'; eapply zget_bounds; eauto|].
    exists g, q. split; [exists gs; auto|]. split; [exists (map snd o); split; [unfold idxs; apply zget_map_ok; exact Hos|rewrite (zget_map_ok _ _ _ _ Hq); reflexivity]|].
    specialize (Go s gs o Hgs Hos). pose proof (zget_bounds _ _ _ Hgi). apply zget_ok in Hgi as [_ Hgi]. apply zget_ok in Hq as [_ Hq]. clear -Go Hgi Hq. revert Hgi Hq. generalize (Z.to_nat i).
    induction Go; intros [|m] Hgi Hq; cbn in *; try discriminate; [congruence|eauto]. }
  assert (forall s i g, goes_to globals s i g -> exists r, goes_to ranks s i r) as K2.
  { intros s i g (gs & Hgs & Hi). destruct (zget_in_range owners s) as (o & Hos); [rewrite Lo; eapply zget_bounds; eauto|].
    destruct (zget_in_range o i) as ([r q] & Hq); [rewrite (Lz s gs o Hgs Hos); eapply zget_bounds; eauto|].
    exists r, (map fst o). split; [unfold ranks; apply zget_map_ok; exact Hos|rewrite (zget_map_ok _ _ _ _ Hq); reflexivity]. }
  assert (forall g r q, zget (laid_out n p) g = Ok (r, q) -> 0 <= r < p /\ 0 <= q < part_size n p r) as Lay.
  { intros g r q H. apply laid_out_in; [lia|lia|]. eapply zget_In; eauto. }
  assert (ranks_exist ranks) as Re.
  { intros s i r H. destruct (K1 s i r H) as (g & q & _ & _ & E). rewrite Lr. eapply Lay; eauto. }
  assert (addressed ranks idxs nroots) as Ad.
  { split; [lia|]. split; [lia|]. split; [|split].
    - intros s a b Ha Hb. apply zget_map_inv in Ha as (o & Hos & ->). apply zget_map_inv in Hb as (o' & Hos' & ->). assert (o' = o) as -> by congruence. rewrite !zlen_map. reflexivity.
    - intros r k Hk. apply zget_map_inv in Hk as (x & _ & ->). apply part_size_nonneg; lia.
    - intros s i r q H1 H2. destruct (K1 s i r H1) as (g & q' & _ & H2' & E). pose proof (goes_to_fun _ _ _ _ _ H2 H2') as <-. destruct (Lay g r q E) as [B1 B2].
      exists (part_size n p r). split; [|exact B2]. unfold nroots. rewrite (zget_map_ok _ _ _ r); [reflexivity|]. apply zget_zrange. lia. }
  destruct (make_dist_total inv ranks idxs nroots Hinv Re ltac:(lia) Ad) as (ds & Ed). exists ds, ranks, idxs, nroots. split; [exact Ed|]. split; [exact Ed|].
  split; [exact Re|]. split; [exact Lr|]. split; [exact Ad|]. split.
  { intros s a b Ha Hb. apply zget_map_inv in Hb as (o & Hos & ->). rewrite zlen_map. apply (Lz s a o Ha Hos). }
  intros s i t j. split.
  - intros (r & q & H1 & H2 & H3 & H4). destruct (K1 s i r H1) as (g & q' & G1 & H2' & E). destruct (K1 t j r H3) as (g2 & q2 & G2 & H4' & E2).
    pose proof (goes_to_fun _ _ _ _ _ H2 H2') as <-. pose proof (goes_to_fun _ _ _ _ _ H4 H4') as <-.
    pose proof (NoDup_zget _ _ _ _ (laid_out_NoDup n p) E E2) as ->. eauto.
  - intros (g & G1 & G2). destruct (K2 s i g G1) as (r & H1). destruct (K2 t j g G2) as (r2 & H3).
    destruct (K1 s i r H1) as (g1 & q & G1' & H2 & E). destruct (K1 t j r2 H3) as (g2 & q2 & G2' & H4 & E2).
    pose proof (goes_to_fun _ _ _ _ _ G1 G1') as <-. pose proof (goes_to_fun _ _ _ _ _ G2 G2') as <-.
    assert ((r2, q2) = (r, q)) as [= -> ->] by congruence. exists r, q. auto.
Qed.

Lemma globals_by_size : exists oranks oidxs, owners_from_globals inv globals None = Ok (oranks, oidxs) /\ per_copy globals oranks /\ per_copy globals oidxs /\
  forall s i g, goes_to globals s i g -> exists t j, goes_to globals t j g /\
    forall s' i', goes_to globals s' i' g -> owner_is oranks oidxs s' i' t j /\
    exists n n', holds globals t n /\ holds globals s' n' /\ (n < n' \/ n = n' /\ t <= s').
Proof.
  destruct linear_dist as (ds & ranks & idxs & nroots & E & M & Re & Lr & Ad & Sz & Se).
  destruct (update_by_size ranks idxs nroots ds _ (make_dist_link inv ranks idxs nroots Hinv Re ltac:(lia) Ad ds M)) as (oranks & oidxs & Eu & P1 & P2 & U).
  unfold owners_from_globals. rewrite E. cbn [bind]. exists oranks, oidxs. split; [exact Eu|].
  assert (forall x, per_copy ranks x -> per_copy globals x) as Pc.
  { intros x [L H]. split; [lia|]. intros s a b Ha Hb. destruct (zget_in_range ranks s) as (c & Hc); [rewrite Lr; eapply zget_bounds; eauto|]. rewrite (H s c b Hc Hb). apply (Sz s a c Ha Hc). }
  split; [apply Pc, P1|]. split; [apply Pc, P2|].
  assert (forall s n, holds ranks s n -> holds globals s n) as Hh.
  { intros s n (a & Ha & La). destruct (zget_in_range globals s) as (c & Hc); [rewrite <- Lr; eapply zget_bounds; eauto|]. exists c. split; [exact Hc|]. rewrite <- (Sz s c a Hc Ha). exact La. }
  intros s i g G. assert (exists r, goes_to ranks s i r) as (r & Hr).
  { destruct (proj2 (Se s i s i)) as (r & q & H & _); [eauto|eauto]. }
  destruct (U s i r Hr) as (t & j & St & H). exists t, j. destruct (proj1 (Se s i t j) St) as (g' & G1 & G2). pose proof (goes_to_fun _ _ _ _ _ G G1) as <-. split; [exact G2|].
  intros s' i' G'. destruct (H s' i') as (O & n & n' & N1 & N2 & N3); [apply Se; eauto|]. split; [exact O|]. exists n, n'. auto.
Qed.

Lemma globals_by_rank own_ranks : per_copy globals own_ranks ->
  exists oidxs, owners_from_globals inv globals (Some own_ranks) = Ok (own_ranks, oidxs) /\ per_copy globals oidxs /\
  forall s i g, goes_to globals s i g -> exists j,
    (forall s' i', goes_to globals s' i' g -> goes_to oidxs s' i' j) /\
    ((j = -1 /\ forall s' i', goes_to globals s' i' g -> ~ goes_to own_ranks s' i' s') \/
     exists t, goes_to globals t j g /\ goes_to own_ranks t j t).
Proof.
  intros Po. destruct linear_dist as (ds & ranks & idxs & nroots & E & M & Re & Lr & Ad & Sz & Se).
  assert (per_copy ranks own_ranks) as Po'.
  { destruct Po as [L H]. split; [lia|]. intros s a b Ha Hb. destruct (zget_in_range globals s) as (c & Hc); [rewrite <- Lr; eapply zget_bounds; eauto|]. rewrite (H s c b Hc Hb). symmetry. apply (Sz s c a Hc Ha). }
  destruct (update_by_rank ranks idxs nroots ds _ (make_dist_link inv ranks idxs nroots Hinv Re ltac:(lia) Ad ds M) own_ranks Po') as (oidxs & Eu & P2 & U).
  unfold owners_from_globals. rewrite E. cbn [bind]. exists oidxs. split; [exact Eu|]. split.
  { destruct P2 as [L H]. split; [lia|]. intros s a b Ha Hb. destruct (zget_in_range ranks s) as (c & Hc); [rewrite Lr; eapply zget_bounds; eauto|]. rewrite (H s c b Hc Hb). apply (Sz s a c Ha Hc). }
  intros s i g G. assert (exists r, goes_to ranks s i r) as (r & Hr).
  { destruct (proj2 (Se s i s i)) as (r & q & H & _); [eauto|eauto]. }
  destruct (U s i r Hr) as (j & H1 & H2). exists j. split; [intros s' i' G'; apply H1, Se; eauto|].
  destruct H2 as [[-> H]|(t & St & T)]; [left; split; [reflexivity|]; intros s' i' G'; apply H, Se; eauto|].
  right. exists t. split; [|exact T]. destruct (proj1 (Se s i t j) St) as (g' & G1 & G2). pose proof (goes_to_fun _ _ _ _ _ G G1) as <-. exact G2.
Qed.
End globals.

(** ** consistent owning ranks *)
Lemma consistent_owners (same : Z -> Z -> Z -> Z -> Prop) (own_ranks oidxs : list (list Z)) s i o j :
  (forall s' i', same s i s' i' -> goes_to own_ranks s' i' o) -> (exists i', same s i o i') -> 
  (forall s' i', same s i s' i' -> goes_to oidxs s' i' j) ->
  ((j = -1 /\ forall s' i', same s i s' i' -> ~ goes_to own_ranks s' i' s') \/ exists t, same s i t j /\ goes_to own_ranks t j t) ->
  same s i o j /\ forall s' i', same s i s' i' -> owner_is own_ranks oidxs s' i' o j.
Proof.
  intros C (i' & Ci) H [[_ N]|(t & T1 & T2)]; [destruct (N o i' Ci (C o i' Ci))|].
  pose proof (goes_to_fun _ _ _ _ _ T2 (C t j T1)) as ->. split; [exact T1|]. intros s' i'' S'. split; auto.
Qed.

(** ** numbering *)
Lemma firstn_split {A} (l : list A) r x : zget l r = Ok x -> exists rest, l = firstn (Z.to_nat r) l ++ x :: rest.
Proof.
  intros H. apply zget_ok in H as [_ H]. apply nth_error_split in H as (l1 & l2 & E & Le). exists l2. rewrite E at 2. rewrite <- Le, firstn_app, firstn_all, Nat.sub_diag. cbn. rewrite app_nil_r. exact E.
Qed.
Lemma concat_at {A} (ls : list (list A)) r l a x : zget ls r = Ok l -> zget l a = Ok x -> zget (concat ls) (before ls r + a) = Ok x.
Proof.
  intros E Ea. destruct (firstn_split ls r l E) as (rest & El). rewrite El, concat_app. cbn [concat]. unfold before. rewrite <- El. pose proof (zget_bounds _ _ _ Ea) as B.
  rewrite zget_app_r by lia. rewrite zget_app_l by lia. replace (zlen _ + a - zlen _) with a by lia. exact Ea.
Qed.
Lemma starts_gen {A} (ls : list (list A)) r l : zget ls r = Ok l -> zget (exscan_sum (map (@zlen A) ls)) r = Ok (before ls r).
Proof.
  intros E. unfold exscan_sum. rewrite (exscan_from_get _ 0 r (zlen l)).
  - rewrite firstn_map, sum_zlen. reflexivity.
  - rewrite zget_map, E. reflexivity.
Qed.
Lemma filter_at (P : Z -> bool) n i : 0 <= i < n -> P i = true -> zget (filter P (zrange n)) (zlen (filter P (zrange i))) = Ok i.
Proof.
  intros Hi HP. destruct (firstn_filter_zrange P (i + 1) n ltac:(lia)) as (rest & ->). rewrite filter_zrange_succ by lia. rewrite HP, <- app_assoc.
  rewrite zget_app_r by lia. rewrite Z.sub_diag. reflexivity.
Qed.

Section number.
Context (oranks : list (list Z)).
Definition mine (s : Z) (a : list Z) (i : Z) : bool := match zget a i with Ok t => t =? s | _ => false end.
Definition own1 (s : Z) : list (Z * Z) := match zget oranks s with Ok a => map (pair s) (filter (mine s a) (zrange (zlen a))) | _ => [] end.
Definition owns : list (list (Z * Z)) := map own1 (zrange (zlen oranks)).
Lemma owned_list_concat : owned_list oranks = concat owns.
Proof. unfold owned_list, owns. rewrite flat_map_concat_map. reflexivity. Qed.
Lemma owns_get s a : zget oranks s = Ok a -> zget owns s = Ok (map (pair s) (filter (mine s a) (zrange (zlen a)))).
Proof.
  intros Ha. unfold owns. rewrite (zget_map_ok _ _ _ s); [|apply zget_zrange; eapply zget_bounds; eauto]. unfold own1. rewrite Ha. reflexivity.
Qed.
Lemma owns_len : zlen owns = zlen oranks.
Proof. unfold owns. rewrite zlen_map, zlen_zrange by apply zlen_nonneg. reflexivity. Qed.

Lemma owned_place s i : goes_to oranks s i s -> exists a, zget oranks s = Ok a /\ zget (owned_list oranks) (before owns s + zlen (filter (mine s a) (zrange i))) = Ok (s, i).
Proof.
  intros (a & Ha & Hi). exists a. split; [exact Ha|]. rewrite owned_list_concat. eapply concat_at; [apply owns_get; exact Ha|].
  rewrite (zget_map_ok _ _ _ i); [reflexivity|]. apply filter_at; [eapply zget_bounds; eauto|]. unfold mine. rewrite Hi. apply Z.eqb_refl.
Qed.
Lemma owned_in s i : In (s, i) (owned_list oranks) <-> goes_to oranks s i s.
Proof.
  rewrite owned_list_concat. split.
  - intros H. apply in_concat in H as (l & Hl & H). apply In_zget in Hl as (r & Hr). pose proof (zget_bounds _ _ _ Hr) as B. rewrite owns_len in B.
    destruct (zget_in_range oranks r B) as (a & Ha). rewrite (owns_get r a Ha) in Hr. injection Hr as <-. apply in_map_iff in H as (i' & [= -> ->] & H).
    apply filter_In in H as [H1 H2]. unfold mine in H2. destruct (zget a i) as [t| |] eqn:E; try discriminate. apply Z.eqb_eq in H2 as ->. exists a. auto.
  - intros H. destruct (owned_place s i H) as (a & _ & E). rewrite owned_list_concat in E. eapply zget_In; eauto.
Qed.
Lemma owned_NoDup : NoDup (owned_list oranks).
Proof.
  unfold owned_list. generalize (zrange_NoDup (zlen oranks)). generalize (zrange (zlen oranks)). induction l as [|s l IH]; intros N; [constructor|].
  inversion N; subst. cbn [flat_map]. apply NoDup_app_intro; [|apply IH; assumption|].
  - destruct (zget oranks s); [|constructor|constructor]. apply FinFun.Injective_map_NoDup; [intros ? ? [=]; assumption|]. apply NoDup_filter, zrange_NoDup.
  - intros [t i] I1 I2. assert (t = s) as ->.
    { destruct (zget oranks s); [|destruct I1|destruct I1]. apply in_map_iff in I1 as (? & [= <- _] & _). reflexivity. }
    apply in_flat_map in I2 as (t & Ht & I2). assert (s = t) as -> by (destruct (zget oranks t); [|destruct I2|destruct I2]; apply in_map_iff in I2 as (? & [= <- _] & _); reflexivity). auto.
Qed.
Lemma owned_position s i v : zget (owned_list oranks) v = Ok (s, i) -> exists a, zget oranks s = Ok a /\ zget a i = Ok s /\ v = before owns s + zlen (filter (mine s a) (zrange i)).
Proof.
  intros H. assert (goes_to oranks s i s) as G by (apply owned_in; eapply zget_In; eauto). destruct (owned_place s i G) as (a & Ha & E).
  exists a. split; [exact Ha|]. destruct G as (a' & Ha' & Hi). split; [congruence|]. exact (NoDup_zget _ _ _ _ owned_NoDup H E).
Qed.

Lemma owned_marks s a : owned1 s a = map (fun r => if r =? s then 1 else 0) a.
Proof. reflexivity. Qed.
Lemma owned_prefix s a i : 0 <= i <= zlen a -> zsum (firstn (Z.to_nat i) (owned1 s a)) = zlen (filter (mine s a) (zrange i)).
Proof.
  intros Hi. rewrite marks_prefix_sum.
  - f_equal. apply filter_ext_in. intros k Hk. apply in_zrange in Hk. destruct (zget_in_range a k ltac:(lia)) as (t & Ht). unfold mine. rewrite Ht. unfold owned1. rewrite (zget_map_ok _ _ _ _ Ht).
    destruct (t =? s); reflexivity.
  - intros m Hm. apply in_map_iff in Hm as (t & <- & _). destruct (t =? s); auto.
  - unfold owned1. rewrite zlen_map. exact Hi.
Qed.
Lemma owned_total s a : zsum (owned1 s a) = zlen (filter (mine s a) (zrange (zlen a))).
Proof.
  rewrite <- (owned_prefix s a (zlen a)) by (pose proof (zlen_nonneg a); lia). rewrite firstn_all2; [reflexivity|]. unfold owned1. rewrite map_length. unfold zlen. lia.
Qed.

Lemma rescan_owned : exists owned g, tabulate (zlen oranks) (fun r => a <- zget oranks r ;; Ok (owned1 r a)) = Ok owned /\
  rescan_globals owned = Ok g /\ per_copy oranks g /\
  forall s a i, zget oranks s = Ok a -> 0 <= i < zlen a -> goes_to g s i (before owns s + zlen (filter (mine s a) (zrange i))).
Proof.
  destruct (tabulate_rel (zlen oranks) (fun r => a <- zget oranks r ;; Ok (owned1 r a)) (fun r y => exists a, zget oranks r = Ok a /\ y = owned1 r a)) as (owned & Eo & Lo & Go); [apply zlen_nonneg| |].
  { intros r Hr. destruct (zget_in_range oranks r Hr) as (a & Ha). rewrite Ha. cbn [bind]. eauto. }
  exists owned. unfold rescan_globals.
  assert (mapM (fun c => last_of (offset_scan c)) owned = Ok (map (@zlen (Z * Z)) owns)) as ->.
  { destruct (mapM_rel (fun c => last_of (offset_scan c)) owned (fun s c y => y = zsum c)) as (o & E & L & G); [intros; eexists; split; [apply offset_scan_last|reflexivity]|].
    rewrite E. f_equal. apply list_eq_zget; [rewrite zlen_map, owns_len; lia|]. intros s Hs. destruct (zget_in_range o s Hs) as (y & Hy). destruct (zget_in_range owned s ltac:(lia)) as (c & Hc).
    rewrite Hy, (G s c y Hc Hy). destruct (Go s c Hc) as (a & Ha & ->). rewrite (zget_map_ok _ _ _ _ (owns_get s a Ha)), zlen_map, owned_total. reflexivity. }
  cbn [bind].
  destruct (tabulate_rel (zlen owned) (fun r => c <- zget owned r ;; start <- zget (exscan_sum (map (@zlen (Z * Z)) owns)) r ;; tabulate (zlen c) (fun i => o <- zget (offset_scan c) i ;; Ok (o + start)))
    (fun r y => forall a, zget oranks r = Ok a -> zlen y = zlen a /\ forall i, 0 <= i < zlen a -> zget y i = Ok (before owns r + zlen (filter (mine r a) (zrange i))))) as (g & Eg & Lg & Gg); [apply zlen_nonneg| |].
  { intros r Hr. destruct (zget_in_range owned r Hr) as (c & Hc). rewrite Hc. cbn [bind]. destruct (Go r c Hc) as (a & Ha & ->). rewrite (starts_gen _ _ _ (owns_get r a Ha)). cbn [bind].
    destruct (tabulate_rel (zlen (owned1 r a)) (fun i => o <- zget (offset_scan (owned1 r a)) i ;; Ok (o + before owns r)) (fun i v => v = before owns r + zlen (filter (mine r a) (zrange i)))) as (y & Ey & Ly & Gy); [apply zlen_nonneg| |].
    - intros i Hi. rewrite offset_scan_get by lia. cbn [bind]. eexists. split; [reflexivity|]. unfold owned1 in Hi. rewrite zlen_map in Hi. rewrite owned_prefix by lia. lia.
    - exists y. split; [exact Ey|]. intros a' Ha'. assert (a' = a) as -> by congruence. assert (zlen y = zlen a) as La by (rewrite Ly; unfold owned1; apply zlen_map). split; [exact La|].
      intros i Hi. destruct (zget_in_range y i ltac:(lia)) as (v & Hv). rewrite Hv, (Gy i v Hv). reflexivity. }
  exists g. split; [exact Eo|]. split; [exact Eg|]. split.
  - split; [lia|]. intros s a b Ha Hb. apply (Gg s b Hb a Ha).
  - intros s a i Ha Hi. destruct (zget_in_range g s) as (y & Hy); [rewrite Lg, Lo; eapply zget_bounds; eauto|]. exists y. split; [exact Hy|]. apply (Gg s y Hy a Ha). exact Hi.
Qed.

Lemma nglobal_shared : nglobal_ents true oranks = repeat (zlen (owned_list oranks)) (length oranks).
Proof.
  unfold nglobal_ents, allreduce_sum. rewrite owned_list_concat.
  assert (map (fun r => match zget oranks r with Ok a => fold_left Z.add (owned1 r a) 0 | _ => 0 end) (zrange (zlen oranks)) = map (@zlen (Z * Z)) owns) as ->.
  { unfold owns. rewrite map_map. apply map_ext_in. intros r Hr. apply in_zrange in Hr. unfold own1. destruct (zget_in_range oranks r Hr) as (a & Ha). rewrite Ha, zlen_map, <- owned_total, fold_left_zsum. lia. }
  rewrite fold_add, sum_zlen, Z.add_0_l. rewrite map_map.
  assert (forall (l : list (list (Z * Z))) (c : Z), map (fun _ => c) l = repeat c (length l)) as Q by (induction l; intros; cbn; [reflexivity|f_equal; auto]).
  rewrite Q. f_equal. pose proof owns_len as E. unfold zlen in E. lia.
Qed.
End number.

Section sync.
Context (inv : Z -> list Z -> Z -> res (list Z * list Z)) (oranks oidxs : list (list Z)).
Hypothesis Hinv : inverter inv.
Hypothesis fits : zlen oranks <= i32_max + 1.
Hypothesis Hok : owners_ok oranks oidxs.

Lemma idx_of s i t : goes_to oranks s i t -> exists j, goes_to oidxs s i j.
Proof.
  destruct Hok as ([L H] & _). intros (a & Ha & Hi). destruct (zget_in_range oidxs s) as (b & Hb); [rewrite L; eapply zget_bounds; eauto|].
  destruct (zget_in_range b i) as (j & Hj); [rewrite (H s a b Ha Hb); eapply zget_bounds; eauto|]. exists j, b. auto.
Qed.
Lemma owners_exist : ranks_exist oranks.
Proof.
  intros s i t H. destruct (idx_of s i t H) as (j & Hj). destruct Hok as (_ & K & _). destruct (K s i t j (conj H Hj)) as (a & Ha & _). eapply zget_bounds; eauto.
Qed.
Lemma owners_addressed : addressed oranks oidxs (map zlen oranks).
Proof.
  destruct Hok as ([L H] & K & _). split; [exact L|]. split; [apply zlen_map|]. split; [exact H|]. split.
  - intros r k Hk. apply zget_map_inv in Hk as (a & _ & ->). apply zlen_nonneg.
  - intros s i t j H1 H2. destruct (K s i t j (conj H1 H2)) as (a & Ha & Hj). exists (zlen a). split; [apply zget_map_ok; exact Ha|eapply zget_bounds; eauto].
Qed.

Lemma sync_agrees {A} (a : list (list A)) width : 0 < width -> data_per_item oranks a width ->
  exists b, sync_array inv oranks oidxs a width = Ok b /\ data_per_item oranks b width /\
  forall s i t j x y, owner_is oranks oidxs s i t j -> zget a t = Ok x -> zget b s = Ok y -> same_block width y i x j.
Proof.
  intros Hw D. unfold sync_array. destruct (make_dist_total inv oranks oidxs _ Hinv owners_exist fits owners_addressed) as (ds & Ed). rewrite Ed. cbn [bind].
  destruct (dist_returns_lemma inv oranks oidxs _ Hinv owners_exist fits owners_addressed ds Ed A a width Hw) as (b & Eb & Db & Gb).
  { destruct D as [L H]. split; [rewrite zlen_map; exact L|]. intros r k x Hk Hx. apply zget_map_inv in Hk as (c & Hc & ->). apply (H r c x Hc Hx). }
  exists b. split; [exact Eb|]. split; [exact Db|]. intros s i t j x y [H1 H2] Hx Hy. eapply Gb; eauto.
Qed.

Lemma reduce_joins {A} (init : A) join (a : list (list A)) width : 0 < width -> data_per_item oranks a width ->
  exists b, reduce_array init join inv oranks oidxs a width = Ok b /\ data_per_item oranks b width /\
  forall t j t0 y, goes_to oranks t j t0 -> zget b t = Ok y ->
  exists copies, NoDup copies /\ (forall s i, In (s, i) copies <-> owner_is oranks oidxs s i t j) /\
  forall c, 0 <= c < width -> exists vs, mapM (fun p => x <- zget a (fst p) ;; zget x (snd p * width + c)) copies = Ok vs /\ zget y (j * width + c) = Ok (fold_left join vs init).
Proof.
  intros Hw D. unfold reduce_array. destruct (make_dist_total inv oranks oidxs _ Hinv owners_exist fits owners_addressed) as (ds & Ed). rewrite Ed. cbn [bind].
  destruct (dist_reduces_lemma inv oranks oidxs _ Hinv owners_exist fits owners_addressed ds Ed A init join a width Hw D) as (b & Eb & [Lb Db] & Gb).
  rewrite zlen_map in Lb. exists b. split; [exact Eb|]. split.
  - split; [exact Lb|]. intros s c x Hc Hx. apply (Db s (zlen c) x); [apply zget_map_ok; exact Hc|exact Hx].
  - intros t j t0 y (c & Hc & Hj) Hy. apply (Gb t (zlen c) y j); [apply zget_map_ok; exact Hc|exact Hy|eapply zget_bounds; eauto].
Qed.

Lemma numbering_shared : exists g, globals_from_owners inv true oranks oidxs = Ok g /\ per_copy oranks g /\
  (forall v s i, zget (owned_list oranks) v = Ok (s, i) -> goes_to g s i v) /\
  (forall s i t j v, owner_is oranks oidxs s i t j -> (goes_to g s i v <-> goes_to g t j v)) /\
  (forall s i t, goes_to oranks s i t -> exists v, goes_to g s i v).
Proof.
  unfold globals_from_owners. cbn [negb]. destruct (rescan_owned oranks) as (owned & g0 & Eo & Eg & [Lg Pg] & Gg). rewrite Eo. cbn [bind]. rewrite Eg. cbn [bind].
  destruct (sync_agrees g0 1 ltac:(lia)) as (g & Es & [Ls Ps] & Gs). { split; [exact Lg|]. intros s a x Ha Hx. rewrite (Pg s a x Ha Hx). lia. }
  exists g. split; [exact Es|]. split; [split; [exact Ls|]; intros s a b Ha Hb; rewrite (Ps s a b Ha Hb); lia|].
  assert (forall s i t j v, owner_is oranks oidxs s i t j -> (goes_to g s i v <-> goes_to g0 t j v)) as K.
  { intros s i t j v O. pose proof O as [(a & Ha & Hi) _]. destruct Hok as (_ & Q & _). destruct (Q s i t j O) as (b & Hb & Hj).
    destruct (zget_in_range g0 t) as (x & Hx); [rewrite Lg; eapply zget_bounds; eauto|]. destruct (zget_in_range g s) as (y & Hy); [rewrite Ls; eapply zget_bounds; eauto|].
    destruct (Gs s i t j x y O Hx Hy 0 ltac:(lia)) as (u & V1 & V2). replace (i * 1 + 0) with i in V1 by lia. replace (j * 1 + 0) with j in V2 by lia.
    split; intros (z & Z1 & Z2); [exists x|exists y]; (split; [assumption|congruence]). }
  assert (forall s i t j, owner_is oranks oidxs s i t j -> owner_is oranks oidxs t j t j) as Self.
  { intros s i t j O. destruct Hok as (_ & Q1 & Q2). specialize (Q1 s i t j O). split; [exact Q1|apply Q2, Q1]. }
  split; [|split].
  - intros v s i Hv. destruct (owned_position oranks s i v Hv) as (a & Ha & Hi & ->). apply (K s i s i).
    + split; [exists a; auto|]. destruct Hok as (_ & _ & Q). apply Q. exists a; auto.
    + apply Gg; [exact Ha|eapply zget_bounds; eauto].
  - intros s i t j v O. rewrite (K s i t j v O), (K t j t j v (Self s i t j O)). tauto.
  - intros s i t H. destruct (idx_of s i t H) as (j & Hj). destruct Hok as (_ & Q1 & _). destruct (Q1 s i t j (conj H Hj)) as (b & Hb & Hjj).
    eexists. apply (K s i t j _ (conj H Hj)). apply Gg; [exact Hb|eapply zget_bounds; eauto].
Qed.

Lemma numbering_unshared : (forall s i t, goes_to oranks s i t -> t = s) ->
  exists g, globals_from_owners inv false oranks oidxs = Ok g /\ per_copy oranks g /\
  (forall v s i, zget (owned_list oranks) v = Ok (s, i) -> goes_to g s i v) /\ nglobal_ents false oranks = repeat (zlen (owned_list oranks)) (length oranks).
Proof.
  intros Hs. unfold globals_from_owners. cbn [negb].
  assert (forall s a i, zget oranks s = Ok a -> 0 <= i <= zlen a -> zlen (filter (mine s a) (zrange i)) = i) as All.
  { intros s a i Ha Hi. rewrite <- (zlen_zrange i) at 2 by lia. f_equal. rewrite (filter_ext_in (mine s a) (fun _ => true)).
    - induction (zrange i); cbn; congruence.
    - intros k Hk. apply in_zrange in Hk. destruct (zget_in_range a k ltac:(lia)) as (t & Ht). unfold mine. rewrite Ht. apply Z.eqb_eq. apply (Hs s k t). exists a; auto. }
  assert (map zlen oranks = map (@zlen (Z * Z)) (owns oranks)) as Em.
  { apply list_eq_zget; [rewrite !zlen_map, owns_len; reflexivity|]. rewrite zlen_map. intros s Hr. destruct (zget_in_range oranks s Hr) as (a & Ha).
    rewrite (zget_map_ok _ _ _ _ Ha), (zget_map_ok _ _ _ _ (owns_get oranks s a Ha)), zlen_map, All by (auto; pose proof (zlen_nonneg a); lia). reflexivity. }
  rewrite Em.
  destruct (tabulate_rel (zlen oranks) (fun r => a <- zget oranks r ;; start <- zget (exscan_sum (map (@zlen (Z * Z)) (owns oranks))) r ;; Ok (map (fun i => start + i) (zrange (zlen a))))
    (fun r y => exists a, zget oranks r = Ok a /\ y = map (fun i => before (owns oranks) r + i) (zrange (zlen a)))) as (g & Eg & Lg & Gg); [apply zlen_nonneg| |].
  { intros r Hr. destruct (zget_in_range oranks r Hr) as (a & Ha). rewrite Ha. cbn [bind]. rewrite (starts_gen _ _ _ (owns_get oranks r a Ha)). cbn [bind]. eauto. }
  exists g. split; [exact Eg|]. split; [|split].
  - split; [lia|]. intros s a b Ha Hb. destruct (Gg s b Hb) as (a' & Ha' & ->). assert (a' = a) as -> by congruence. rewrite zlen_map, zlen_zrange by apply zlen_nonneg. reflexivity.
  - intros v s i Hv. destruct (owned_position oranks s i v Hv) as (a & Ha & Hi & ->). destruct (zget_in_range g s) as (y & Hy); [rewrite Lg; eapply zget_bounds; eauto|].
    exists y. split; [exact Hy|]. destruct (Gg s y Hy) as (a' & Ha' & ->). assert (a' = a) as -> by congruence. pose proof (zget_bounds _ _ _ Hi).
    rewrite (zget_map_ok _ _ _ i) by (apply zget_zrange; lia). rewrite All by (auto; lia). reflexivity.
  - unfold nglobal_ents, allreduce_sum. rewrite owned_list_concat, Em, fold_add, sum_zlen, Z.add_0_l, map_map.
    assert (forall (l : list (list (Z * Z))) (c : Z), map (fun _ => c) l = repeat c (length l)) as Q by (induction l; intros; cbn; [reflexivity|f_equal; auto]).
    rewrite Q. f_equal. pose proof (owns_len oranks) as E. unfold zlen in E. lia.
Qed.
End sync.

Lemma update_consistent inv ranks idxs nroots : inverter inv -> ranks_exist ranks -> zlen ranks <= i32_max + 1 -> addressed ranks idxs nroots ->
  forall ds, make_dist inv ranks idxs nroots = Ok ds -> forall own_ranks, per_copy ranks own_ranks ->
  (forall s i o, goes_to own_ranks s i o -> (exists i', same_entity ranks idxs s i o i') /\ forall s' i', same_entity ranks idxs s i s' i' -> goes_to own_ranks s' i' o) ->
  exists oidxs, update_ownership ds (Some own_ranks) = Ok (own_ranks, oidxs) /\ per_copy ranks oidxs /\
  forall s i o, goes_to own_ranks s i o -> exists j, same_entity ranks idxs s i o j /\ forall s' i', same_entity ranks idxs s i s' i' -> owner_is own_ranks oidxs s' i' o j.
Proof.
  intros Hi Re Ft Ad ds M own P C. destruct (update_by_rank ranks idxs nroots ds _ (make_dist_link inv ranks idxs nroots Hi Re Ft Ad ds M) own P) as (oidxs & E & Po & U).
  exists oidxs. split; [exact E|]. split; [exact Po|]. intros s i o Ho. destruct (C s i o Ho) as [C1 C2]. destruct C1 as (i' & r & q & R1 & R2 & R3 & R4).
  destruct (U s i r R1) as (j & J1 & J2). exists j. apply (consistent_owners (same_entity ranks idxs)); auto. exists i', r, q. auto.
Qed.

Lemma globals_consistent inv globals : inverter inv -> 0 < zlen globals <= i32_max + 1 -> Forall (Forall (fun g => 0 <= g)) globals ->
  forall own_ranks, per_copy globals own_ranks ->
  (forall s i g o, goes_to globals s i g -> goes_to own_ranks s i o -> (exists i', goes_to globals o i' g) /\ forall s' i', goes_to globals s' i' g -> goes_to own_ranks s' i' o) ->
  exists oidxs, owners_from_globals inv globals (Some own_ranks) = Ok (own_ranks, oidxs) /\ per_copy globals oidxs /\
  forall s i g o, goes_to globals s i g -> goes_to own_ranks s i o -> exists j, goes_to globals o j g /\ forall s' i', goes_to globals s' i' g -> owner_is own_ranks oidxs s' i' o j.
Proof.
  intros Hi Hp Hg own P C. destruct (globals_by_rank inv globals Hi Hp Hg own P) as (oidxs & E & Po & U).
  exists oidxs. split; [exact E|]. split; [exact Po|]. intros s i g o Hgi Ho. destruct (C s i g o Hgi Ho) as [C1 C2].
  destruct (U s i g Hgi) as (j & J1 & J2). exists j. apply (consistent_owners (fun _ _ s' i' => goes_to globals s' i' g) own oidxs s i o j); auto.
Qed.

Lemma goes_to_per_copy ranks x s i r : per_copy ranks x -> goes_to x s i r -> exists q, goes_to ranks s i q.
Proof.
  intros [L C] (b & B1 & B2). assert (Bs : 0 <= s < zlen ranks) by (rewrite <- L; eapply zget_bounds; eauto).
  destruct (zget_in_range ranks s Bs) as [a Ha]. specialize (C s a b Ha B1). assert (Bi : 0 <= i < zlen a) by (rewrite <- C; eapply zget_bounds; eauto).
  destruct (zget_in_range a i Bi) as [q Hq]. exists q, a. auto.
Qed.

Lemma globals_owners_ok inv globals : inverter inv -> 0 < zlen globals <= i32_max + 1 -> Forall (Forall (fun g => 0 <= g)) globals -> Forall (@NoDup Z) globals ->
  exists oranks oidxs, owners_from_globals inv globals None = Ok (oranks, oidxs) /\ per_copy globals oranks /\ owners_ok oranks oidxs /\
  forall s i t j g, owner_is oranks oidxs s i t j -> goes_to globals s i g -> goes_to globals t j g.
Proof.
  intros Hi Hp Hg Nd. destruct (globals_by_size inv globals Hi Hp Hg) as (oranks & oidxs & E & P1 & P2 & U).
  exists oranks, oidxs. split; [exact E|]. split; [exact P1|].
  assert (K : forall s i t j g, owner_is oranks oidxs s i t j -> goes_to globals s i g -> goes_to globals t j g /\ owner_is oranks oidxs t j t j).
  { intros s i t j g [O1 O2] G. destruct (U s i g G) as (t' & j' & G' & F). destruct (F s i G) as [[F1 F2] _].
    rewrite (goes_to_fun _ _ _ _ _ O1 F1), (goes_to_fun _ _ _ _ _ O2 F2). split; [exact G'|]. apply (F t' j' G'). }
  split; [|intros s i t j g O G; apply (K s i t j g O G)]. split; [|split].
  - destruct P1 as [L1 C1], P2 as [L2 C2]. split; [lia|]. intros s a b Ha Hb.
    assert (Bs : 0 <= s < zlen globals) by (rewrite <- L1; eapply zget_bounds; eauto). destruct (zget_in_range globals s Bs) as [c Hc].
    rewrite (C1 _ _ _ Hc Ha). apply (C2 _ _ _ Hc Hb).
  - intros s i t j O. destruct (goes_to_per_copy _ _ _ _ _ P1 (proj1 O)) as [g G]. apply (K s i t j g O G).
  - intros s i O1. destruct (goes_to_per_copy _ _ _ _ _ P1 O1) as [g G]. destruct (U s i g G) as (t' & j' & G' & F). destruct (F s i G) as [[F1 F2] _].
    rewrite <- (goes_to_fun _ _ _ _ _ O1 F1) in G'. destruct G as (a & A1 & A2), G' as (a' & B1 & B2). rewrite A1 in B1. inversion B1; subst a'.
    assert (Na : NoDup a) by (rewrite Forall_forall in Nd; apply Nd; eapply zget_In; eauto).
    pose proof (NoDup_zget a i j' g Na A2 B2) as Q. rewrite <- Q in F2. exact F2.
Qed.
