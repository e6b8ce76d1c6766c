(** Deriving the classification again, without identifiers, and classification by given entities. *)
From Coq Require Import Permutation.
From Verif Require Import Prelude M_Array P_Dist P_Dist3 P_Unique M_Map P_Map M_Template S_Template P_Template M_Align S_Align P_Align M_Adj S_Adj P_Adj M_Graph S_Graph P_Graph S_Unique M_Match S_Match P_Match P_Transit S_Across M_MeshAdj S_MeshAdj P_MeshAdj P_MeshAdj2 P_MeshAdj3 M_Build S_Build P_Build P_Box M_Class S_Class P_Class P_Class2 P_Class3.
Local Open Scope Z_scope.

(** ** The theorems about finalize_classification *)
Lemma any_ids T m t : ready T m -> (has_any_ids m t = true <-> exists d, 0 <= d <= t_dim T /\ c_ids t d <> None).
Proof.
  intros R. unfold has_any_ids. rewrite existsb_exists, (i_dim T m (proj1 R)). split.
  - intros (d & Hd & H). apply in_zrange in Hd. exists d. split; [lia|]. destruct (c_ids t d); congruence.
  - intros (d & Hd & H). exists d. split; [apply in_zrange; lia|]. destruct (c_ids t d); congruence.
Qed.
Lemma finalize_full T c m t m' t' : valid_topology T -> mesh_of T m -> whole_tags T t -> (exists d, 0 <= d <= t_dim T /\ c_ids t d <> None) -> finalize_classification c m t = Ok (Some (m', t')) -> full T t t'.
Proof.
  intros V M W HI E. pose proof (mesh_ready T m V M) as R. destruct (finalize_ok T t V W false c m ltac:(discriminate) R) as [_ K]. destruct (K _ E) as [_ F]. cbn [snd] in F. rewrite (proj2 (any_ids T m t R) HI) in F. exact F.
Qed.
Lemma finalize_answers T c m t : valid_topology T -> mesh_of T m -> whole_tags T t -> exists o, finalize_classification c m t = Ok o.
Proof. intros V M W. destruct (finalize_ok T t V W false c m ltac:(discriminate) (mesh_ready T m V M)) as [(o & E & _) _]. exists o. exact E. Qed.
Lemma finalize_can_finish T m t mem : valid_topology T -> mesh_of T m -> whole_tags T t -> exists first second r, finalize_classification (mk_chance mem first second (fun _ _ => false)) m t = Ok (Some r).
Proof.
  intros V M W. destruct (finishing_chance T mem V) as (f & s & HF). exists f, s. destruct (finalize_ok T t V W true _ m (fun _ => HF) (mesh_ready T m V M)) as [(o & E & K) _]. destruct (K eq_refl) as (r & ->). exists r. exact E.
Qed.
Lemma finalize_derived T c m t m' t' : valid_topology T -> mesh_of T m -> whole_tags T t -> (exists d, 0 <= d <= t_dim T /\ c_ids t d <> None) -> finalize_classification c m t = Ok (Some (m', t')) -> derived T t t'.
Proof. intros V M W HI E. apply full_derived; [exact V|exact W|]. eapply finalize_full; eassumption. Qed.
Lemma finalize_fits T c m t m' t' : valid_topology T -> mesh_of T m -> whole_tags T t -> proper_dims T t -> (exists d, 0 <= d <= t_dim T /\ c_ids t d <> None) -> finalize_classification c m t = Ok (Some (m', t')) ->
  (forall d e c, 0 <= d <= t_dim T -> 0 <= e < t_nents T d -> has_class t' d e c -> d <= fst c <= t_dim T) /\
  (forall d e h c c', 0 <= d < t_dim T -> 0 <= e < t_nents T d -> In h (above T d e) -> has_class t' d e c -> has_class t' (d + 1) h c' -> fst c <= fst c' /\ (known_around T t t' -> fst c = fst c' -> snd c = snd c')) /\
  (forall d e id, 0 <= d <= t_dim T -> 0 <= e < t_nents T d -> given_class T t d e (d, id) -> has_class t' d e (d, id)).
Proof.
  intros V M W PD HI E. pose proof (finalize_full T c m t m' t' V M W HI E) as F. split; [|split].
  - intros d e x. apply (derived_fit T t V W PD t' F).
  - intros d e h x x' Hd He Hh H1 H2. split; [apply (derived_below T t V W PD t' F d e h x x'); assumption|]. intros HU EQ. apply (derived_same_id T t V W PD t' F d e h x x'); assumption.
  - intros d e id. apply (derived_keeps T t V W PD t' F).
Qed.
Lemma finalize_sides T c m t m' t' : valid_topology T -> mesh_of T m -> whole_tags T t -> proper_dims T t -> c_dims t (t_dim T - 1) = None -> c_ids t (t_dim T - 1) = None ->
  (exists ids, c_ids t (t_dim T) = Some ids /\ ~ In (-1) ids) -> finalize_classification c m t = Ok (Some (m', t')) -> forall s, 0 <= s < t_nents T (t_dim T - 1) ->
  exists k, has_class t' (t_dim T - 1) s k /\
  ((exists a b i, above T (t_dim T - 1) s = [a; b] /\ has_class t' (t_dim T) a (t_dim T, i) /\ has_class t' (t_dim T) b (t_dim T, i) /\ k = (t_dim T, i)) \/
   ((forall a b i, above T (t_dim T - 1) s = [a; b] -> has_class t' (t_dim T) a (t_dim T, i) -> ~ has_class t' (t_dim T) b (t_dim T, i)) /\ k = (t_dim T - 1, -1))).
Proof.
  intros V M W PD N1 N2 (ids & EI & NI) E s Hs. pose proof (v_dim T V) as HD.
  assert (exists d, 0 <= d <= t_dim T /\ c_ids t d <> None) as HI by (exists (t_dim T); split; [lia|congruence]). pose proof (finalize_full T c m t m' t' V M W HI E) as F.
  destruct (full_derived T t V W t' F) as (D & _). destruct (D (t_dim T - 1) s ltac:(lia) Hs) as (k & Hk). exists k. split; [exact Hk|].
  apply (derived_sides T t V W PD t' F s k N1 N2); try assumption. intros e x He Hx. apply (class_at T t V W t' (t_dim T) e x F ltac:(lia) He) in Hx. rewrite Hx. cbn [snd]. rewrite Z.sub_diag. cbn [Z.to_nat classes snd]. change (Z.of_nat 0) with 0. rewrite Z.sub_0_r.
  unfold dflt. rewrite EI. intros Eq. apply NI. rewrite <- Eq. assert (zlen ids = t_nents T (t_dim T)) as L by (apply (W (t_dim T) ltac:(lia)), EI). apply (zget_In ids e). apply at_get. lia.
Qed.
Lemma finalize_again T c m t m' t' c2 m2 m2' t2' : valid_topology T -> mesh_of T m -> mesh_of T m2 -> whole_tags T t -> proper_dims T t -> (exists d, 0 <= d <= t_dim T /\ c_ids t d <> None) -> finalize_classification c m t = Ok (Some (m', t')) ->
  known_around T t t' -> finalize_classification c2 m2 t' = Ok (Some (m2', t2')) -> forall d, 0 <= d <= t_dim T -> c_dims t2' d = c_dims t' d /\ c_ids t2' d = c_ids t' d.
Proof.
  intros V M M2 W PD HI E HU E2. pose proof (finalize_full T c m t m' t' V M W HI E) as F. pose proof (v_dim T V) as HD.
  assert (whole_tags T t') as W'.
  { intros d Hd. destruct (full_at T t t' d F Hd) as [E1 E3]. destruct (classes_len T t V W (Z.to_nat (t_dim T - d)) ltac:(lia)) as [C1 C2]. replace (t_dim T - Z.of_nat (Z.to_nat (t_dim T - d))) with d in C1, C2 by lia. split; congruence. }
  assert (full T t' t2') as F2. { apply (finalize_full T c2 m2 t' m2' t2' V M2 W'); [|exact E2]. exists (t_dim T). split; [lia|]. destruct (full_at T t t' (t_dim T) F ltac:(lia)) as [_ E3]. congruence. }
  assert (forall k, Z.of_nat k <= t_dim T -> classes T t' k = classes T t k) as KC.
  { induction k as [|k IH]; intros Hk.
    - cbn [classes]. change (Z.of_nat 0) with 0. rewrite Z.sub_0_r. destruct (full_at T t t' (t_dim T) F ltac:(lia)) as [E1 E3]. rewrite Z.sub_diag in E1, E3. cbn [Z.to_nat classes fst snd] in E1, E3. change (Z.of_nat 0) with 0 in E1, E3. rewrite Z.sub_0_r in E1, E3.
      unfold dflt at 1 2. rewrite E1, E3. reflexivity.
    - cbn [classes]. set (d := t_dim T - Z.of_nat (S k)). rewrite IH by lia. assert (0 <= d < t_dim T) as Hd by lia. destruct (full_at T t t' d F ltac:(lia)) as [E1 E3]. replace (Z.to_nat (t_dim T - d)) with (S k) in E1, E3 by lia.
      set (r := row_of T d false (fst (classes T t k)) (snd (classes T t k)) (dflt T (c_dims t) d (t_dim T)) (dflt T (c_ids t) d (-1))).
      assert (row_of T d false (fst (classes T t k)) (snd (classes T t k)) (dflt T (c_dims t') d (t_dim T)) (dflt T (c_ids t') d (-1)) = r) as ->; [|reflexivity].
      unfold r, row_of. apply map_ext_in. intros e He. apply in_zrange in He. unfold dflt at 1 2. rewrite E1, E3. rewrite (below_at T t k e ltac:(lia) He). fold d.
      set (given := (at_ (dflt T (c_dims t) d (t_dim T)) e, at_ (dflt T (c_ids t) d (-1)) e)). set (hd := fst (classes T t k)). set (hi := snd (classes T t k)).
      assert (given_class T t d e given) as Hg by (apply (given_at T t W d e _ ltac:(lia) He); reflexivity). pose proof (full_highs T t V W t' d e F Hd) as HH. replace (Z.to_nat (t_dim T - (d + 1))) with k in HH by lia. fold hd in HH. fold hi in HH.
      pose proof (HU d e given _ Hd He Hg HH) as U.
      assert (forall y, In y (highs_of hd hi (above T d e)) -> d < fst y) as HP by (intros y Hy; apply (highs_proper T t V W PD k e ltac:(lia)), Hy).
      pose proof (dflt_proper T t W PD d e ltac:(lia) He) as G.
      destruct (inferred_again d given _ (one d false hd hi (above T d e) given) ltac:(cbn [fst given]; unfold given; cbn [fst]; lia) HP U) as [I1 I2]; [apply one_inferred; right; exact U|].
      apply (inferred_unique d (one d false hd hi (above T d e) given) (highs_of hd hi (above T d e))); [|exact I1]. apply one_inferred. right. exact I2. }
  intros d Hd. destruct (full_at T t t' d F Hd) as [E1 E3]. destruct (full_at T t' t2' d F2 Hd) as [E4 E5]. rewrite KC in E4, E5 by lia. split; congruence.
Qed.
Lemma finalize_same T c m t m' t' c2 m2 m2' t2' : valid_topology T -> mesh_of T m -> mesh_of T m2 -> whole_tags T t -> finalize_classification c m t = Ok (Some (m', t')) -> finalize_classification c2 m2 t = Ok (Some (m2', t2')) ->
  forall d, 0 <= d <= t_dim T -> c_dims t2' d = c_dims t' d /\ c_ids t2' d = c_ids t' d.
Proof.
  intros V M M2 W E E2 d Hd. pose proof (mesh_ready T m V M) as R. pose proof (mesh_ready T m2 V M2) as R2.
  destruct (finalize_ok T t V W false c m ltac:(discriminate) R) as [_ K]. destruct (K _ E) as [_ F]. destruct (finalize_ok T t V W false c2 m2 ltac:(discriminate) R2) as [_ K2]. destruct (K2 _ E2) as [_ F2]. cbn [snd] in F, F2.
  specialize (F (Z.to_nat (t_dim T - d)) ltac:(lia)). specialize (F2 (Z.to_nat (t_dim T - d)) ltac:(lia)). replace (t_dim T - Z.of_nat (Z.to_nat (t_dim T - d))) with d in F, F2 by lia.
  assert (has_any_ids m2 t = has_any_ids m t) as EH. { unfold has_any_ids. rewrite (i_dim T m (proj1 R)), (i_dim T m2 (proj1 R2)). reflexivity. }
  rewrite EH in F2. destruct F as [F1 F3], F2 as [F4 F5]. split; congruence.
Qed.

(** without identifiers *)
Lemma inferred_unknown e given highs c : snd given = -1 -> (forall h, In h highs -> snd h = -1) -> inferred e given highs c -> snd c = -1.
Proof.
  intros Hg HH (d & id & n & J & A & B). assert ((d = e + 1 /\ n <> 2 \/ e + 1 < d /\ n < 2) \/ ~ (d = e + 1 /\ n <> 2 \/ e + 1 < d /\ n < 2)) as [Hb|Hb] by lia; [rewrite (A Hb); reflexivity|]. rewrite (B Hb). cbn [snd].
  inversion J as [d1 i1 L1 A1 A2|]; [|reflexivity]. destruct A2 as [|[A2|A2]]; [assumption|rewrite A2 in Hg; exact Hg|apply HH in A2; exact A2].
Qed.
Lemma unknown_all_or_none given highs : snd given = -1 -> (forall h, In h highs -> snd h = -1) -> all_or_none given highs.
Proof. intros Hg HH d _. right. intros i [E|Hi]; [rewrite E in Hg; exact Hg|apply HH in Hi; exact Hi]. Qed.
Lemma classes_unknown T t k : valid_topology T -> whole_tags T t -> (forall d, 0 <= d <= t_dim T -> c_ids t d = None) -> Z.of_nat k <= t_dim T -> forall x, In x (snd (classes T t k)) -> x = -1.
Proof.
  intros V W HN. induction k as [|k IH]; intros Hk x Hx.
  - cbn [classes snd] in Hx. unfold dflt in Hx. rewrite HN in Hx by lia. apply repeat_spec in Hx. exact Hx.
  - destruct (In_zget _ _ Hx) as (e & He). destruct (classes_len T t V W (S k) Hk) as [_ C]. pose proof (zget_bounds _ _ _ He) as B. rewrite C in B. apply get_at in He. pose proof (below_at T t k e Hk B) as E. cbv zeta in E. apply (f_equal snd) in E. cbn [snd] in E. rewrite He, E.
    set (d := t_dim T - Z.of_nat (S k)) in *. assert (snd (at_ (dflt T (c_dims t) d (t_dim T)) e, at_ (dflt T (c_ids t) d (-1)) e) = -1) as G. { cbn [snd]. unfold dflt. rewrite HN by lia. apply at_repeat, B. }
    assert (forall h, In h (highs_of (fst (classes T t k)) (snd (classes T t k)) (above T d e)) -> snd h = -1) as HH.
    { intros h Hh. apply in_map_iff in Hh as (y & <- & Hy). cbn [snd]. apply (IH ltac:(lia)). pose proof (above_range T d e V ltac:(lia)) as AR. rewrite Forall_forall in AR. specialize (AR y Hy). replace (d + 1) with (t_dim T - Z.of_nat k) in AR by lia. destruct (classes_len T t V W k ltac:(lia)) as [_ C']. apply (zget_In _ y). apply at_get. lia. }
    eapply inferred_unknown; [exact G|exact HH|]. apply one_inferred. right. apply unknown_all_or_none; assumption.
Qed.
Lemma finalize_no_ids T c m t m' t' : valid_topology T -> mesh_of T m -> whole_tags T t -> (forall d, 0 <= d <= t_dim T -> c_ids t d = None) -> finalize_classification c m t = Ok (Some (m', t')) ->
  (forall d, 0 <= d <= t_dim T -> c_ids t' d = None) /\
  exists ids, (forall d a x, 0 <= d <= t_dim T -> ids d = Some a -> In x a -> x = -1) /\ derived T t (mk_ctags (c_dims t') ids).
Proof.
  intros V M W HN E. pose proof (mesh_ready T m V M) as R. destruct (finalize_ok T t V W false c m ltac:(discriminate) R) as [_ K]. destruct (K _ E) as [_ F]. cbn [snd] in F.
  assert (has_any_ids m t = false) as EH. { destruct (has_any_ids m t) eqn:EH; [|reflexivity]. apply (any_ids T m t R) in EH as (d & Hd & H). rewrite HN in H by exact Hd. congruence. }
  rewrite EH in F. split.
  - intros d Hd. specialize (F (Z.to_nat (t_dim T - d)) ltac:(lia)). replace (t_dim T - Z.of_nat (Z.to_nat (t_dim T - d))) with d in F by lia. apply F.
  - exists (fun d => Some (snd (classes T t (Z.to_nat (t_dim T - d))))). split.
    + intros d a x Hd Ea Hx. injection Ea as <-. eapply classes_unknown; try eassumption. lia.
    + apply full_derived; [exact V|exact W|]. intros k Hk. cbn [c_dims c_ids]. split; [apply F, Hk|]. do 3 f_equal. lia.
Qed.

(** ** project_classification of existing tags *)
Lemma project_tags_infers T c m t d relaxed : valid_topology T -> mesh_of T m -> whole_tags T t -> 0 <= d < t_dim T -> c_dims t d <> None -> c_ids t d <> None -> c_dims t (d + 1) <> None -> c_ids t (d + 1) <> None ->
  exists o, project_tags c m t d relaxed = Ok o /\ forall m' t', o = Some (m', t') -> (forall i, i <> d -> c_dims t' i = c_dims t i /\ c_ids t' i = c_ids t i) /\
  forall e given highs, 0 <= e < t_nents T d -> has_class t d e given -> Forall2 (has_class t (d + 1)) (above T d e) highs -> relaxed = true \/ all_or_none given highs -> exists k, has_class t' d e k /\ inferred d given highs k.
Proof.
  intros V M W Hd N1 N2 N3 N4. pose proof (mesh_ready T m V M) as R. pose proof (v_nents T V d ltac:(lia)) as VN. destruct (c_dims t d) as [dims|] eqn:E1; [|congruence]. destruct (c_ids t d) as [ids|] eqn:E2; [|congruence]. destruct (c_dims t (d + 1)) as [hd|] eqn:E3; [|congruence]. destruct (c_ids t (d + 1)) as [hi|] eqn:E4; [|congruence].
  destruct (W d ltac:(lia)) as [W1 W2]. destruct (W (d + 1) ltac:(lia)) as [W3 W4]. specialize (W1 _ E1). specialize (W2 _ E2). specialize (W3 _ E3). specialize (W4 _ E4).
  destruct (project_ok T false c m t d dims ids relaxed hd hi V ltac:(discriminate) R Hd E3 E4 W3 W4 W1 W2) as [(o & Eo & _) K].
  unfold project_tags, get_tag. rewrite E1, E2. cbn [bind]. unfold bindo. rewrite Eo. cbn [bind]. destruct o as [[m1 r]|]; [|exists None; split; [reflexivity|discriminate]]. destruct (K _ Eo) as [R' Er]. cbn [fst snd] in *. subst r. set (row := row_of T d relaxed hd hi dims ids).
  assert (zlen row = t_nents T d) as LR by (unfold row, row_of; rewrite zlen_map, zlen_zrange; lia). cbn [fst snd]. unfold add_class. rewrite !zlen_map, LR, (ready_nents T m1 d R') by lia. rewrite Z.eqb_refl. cbn [check bind].
  eexists. split; [reflexivity|]. intros m' t' E. injection E as <- <-. cbn [c_dims c_ids]. split.
  - intros i Hi. destruct (Z.eqb_spec i d); [contradiction|]. auto.
  - intros e given highs He Hg HH HU. exists (one d relaxed hd hi (above T d e) (at_ dims e, at_ ids e)). destruct Hg as (a1 & a2 & G1 & G2 & G3 & G4). assert (a1 = dims) as -> by congruence. assert (a2 = ids) as -> by congruence.
    assert (given = (at_ dims e, at_ ids e)) as ->. { destruct given as [x y]. cbn [fst snd] in *. f_equal; apply get_at; assumption. }
    assert (highs = highs_of hd hi (above T d e)) as ->. { clear HU. induction HH as [|h x hs xs Hx _ IH]; [reflexivity|]. unfold highs_of in *. cbn [map]. f_equal; [|exact IH]. destruct Hx as (b1 & b2 & B1 & B2 & B3 & B4). destruct x as [x y]. cbn [fst snd] in *. apply get_at in B3. apply get_at in B4. congruence. }
    split; [|apply one_inferred, HU]. exists (map fst row), (map snd row). cbn [c_dims c_ids]. rewrite Z.eqb_refl. split; [reflexivity|]. split; [reflexivity|]. rewrite !zget_map. unfold row, row_of. rewrite !zget_map, !zget_zrange by exact He. cbn [bind]. auto.
Qed.
Lemma project_one_order e relaxed l2h l2h' hd hi dims ids l hs hs' r given highs : adj_targets l2h l = Ok hs -> adj_targets l2h' l = Ok hs' -> Permutation hs hs' -> project_one e relaxed l2h hd hi dims ids l = Ok r ->
  zget dims l = Ok (fst given) -> zget ids l = Ok (snd given) -> Forall2 (fun h c => zget hd h = Ok (fst c) /\ zget hi h = Ok (snd c)) hs highs -> relaxed = true \/ all_or_none given highs -> zlen dims = zlen ids -> zlen hd = zlen hi ->
  project_one e relaxed l2h' hd hi dims ids l = Ok r.
Proof.
  intros E1 E2 P Er Gd Gi HH HU L1 L2. pose proof (zget_bounds _ _ _ Gd) as B. destruct given as [gd gi]. cbn [fst snd] in *. apply get_at in Gd, Gi.
  assert (Forall (fun h => 0 <= h < zlen hd) hs) as F1. { clear -HH. induction HH as [|h c hs cs [H1 _] _ IH]; constructor; [eapply zget_bounds, H1|exact IH]. }
  assert (Forall (fun h => 0 <= h < zlen hd) hs') as F2. { rewrite Forall_forall in *. intros x Hx. apply F1. eapply Permutation_in; [apply Permutation_sym, P|exact Hx]. }
  assert (highs = highs_of hd hi hs) as ->. { clear -HH. induction HH as [|h x hs xs [H1 H2] _ IH]; [reflexivity|]. unfold highs_of in *. cbn [map]. f_equal; [|exact IH]. destruct x as [x y]. cbn [fst snd] in *. apply get_at in H1. apply get_at in H2. congruence. }
  rewrite (project_one_ok e relaxed l2h hd hi dims ids l hs) in Er by (try assumption; lia). injection Er as <-. rewrite (project_one_ok e relaxed l2h' hd hi dims ids l hs') by (try assumption; lia). f_equal. rewrite <- Gd, <- Gi.
  assert (Permutation (highs_of hd hi hs) (highs_of hd hi hs')) as PH by (apply Permutation_map, P).
  apply (inferred_unique e (gd, gi) (highs_of hd hi hs')).
  - apply one_inferred. destruct HU as [|HU]; [left; assumption|]. right. intros d HL. assert (forall x, In x ((gd, gi) :: highs_of hd hi hs) <-> In x ((gd, gi) :: highs_of hd hi hs')) as HI. { intros x. cbn [In]. split; intros [|H]; auto; right; eapply Permutation_in; try exact H; [exact PH|apply Permutation_sym, PH]. }
    destruct (HU d) as [U|U]; [destruct HL as [[i Hi] HL]; split; [exists i; apply HI, Hi|intros x Hx; apply HL, HI, Hx]| |].
    + left. intros i Hi. apply U. eapply Permutation_in; [apply Permutation_sym, PH|exact Hi].
    + right. intros i Hi. apply U, HI, Hi.
  - eapply inferred_perm; [exact PH|]. apply one_inferred, HU.
Qed.
Lemma completed T c m t : valid_topology T -> mesh_of T m -> whole_tags T t -> (exists d, 0 <= d <= t_dim T /\ c_ids t d <> None) ->
  exists o, finalize_classification c m t = Ok o /\ forall m' t', o = Some (m', t') -> derived T t t'.
Proof.
  intros V M W HI. destruct (finalize_answers T c m t V M W) as (o & E). exists o. split; [exact E|]. intros m' t' ->. eapply finalize_derived; eassumption.
Qed.
