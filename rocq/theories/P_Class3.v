(** What the derived classification is like, and classification by given entities. *)
From Coq Require Import Permutation.
From Verif Require Import Prelude M_Array P_Dist P_Dist3 P_Unique M_Map P_Map M_Template S_Template P_Template M_Align S_Align P_Align M_Adj S_Adj P_Adj M_Graph S_Graph P_Graph S_Unique M_Match S_Match P_Match P_Transit S_Across M_MeshAdj S_MeshAdj P_MeshAdj P_MeshAdj2 P_MeshAdj3 M_Build S_Build P_Build P_Box M_Class S_Class P_Class P_Class2.
Local Open Scope Z_scope.

(** ** The dimension of one class *)
Lemma loop_dims relaxed e highs : forall st, e <= fst (fst st) -> (forall h, In h highs -> e < fst h) -> let r := fold_left (stp relaxed) highs st in
  e <= fst (fst r) /\ fst (fst r) <= fst (fst st) /\ forall h, In h highs -> fst (fst r) <= fst h.
Proof.
  induction highs as [|h highs IH]; intros st He HH r; [subst r; cbn [fold_left]; split; [exact He|]; split; [lia|intros h []]|]. subst r. cbn [fold_left].
  assert (e <= fst (fst (stp relaxed st h)) /\ fst (fst (stp relaxed st h)) <= fst (fst st) /\ fst (fst (stp relaxed st h)) <= fst h) as (A & B & C).
  { pose proof (HH h (or_introl eq_refl)) as Hh. destruct st as [[bd bi] n]. destruct h as [hd hi]. unfold stp, best_step. cbn [fst snd] in *. destruct (Z.ltb_spec hd bd); [cbn [fst]; lia|]. destruct (Z.eqb_spec hd bd); [|cbn [fst]; lia].
    destruct (negb (hi =? bi) && _); [destruct (bi =? -1)|]; cbn [fst]; lia. }
  destruct (IH (stp relaxed st h) A (fun x Hx => HH x (or_intror Hx))) as (D & E & F). split; [exact D|]. split; [lia|]. intros x [<-|Hx]; [lia|apply F, Hx].
Qed.
Lemma end_dims e st : e <= fst (fst st) -> e <= fst (best_end e st) <= fst (fst st).
Proof. destruct st as [[bd bi] n]. unfold best_end. cbn [fst]. intros H. destruct (_ || _); cbn [fst]; lia. Qed.
Lemma one_dims e relaxed hd hi hs given : e <= fst given -> (forall h, In h (highs_of hd hi hs) -> e < fst h) ->
  e <= fst (one e relaxed hd hi hs given) <= fst given /\ forall h, In h (highs_of hd hi hs) -> fst (one e relaxed hd hi hs given) <= fst h.
Proof.
  intros Hg HH. destruct (loop_dims relaxed e (highs_of hd hi hs) (fst given, snd given, 0) Hg HH) as (A & B & C). cbv zeta in *. unfold one. pose proof (end_dims e _ A) as D. cbn [fst] in B. split; [lia|]. intros h Hh. specialize (C h Hh). lia.
Qed.
Lemma one_kept e relaxed hd hi hs id : (forall h, In h (highs_of hd hi hs) -> e < fst h) -> one e relaxed hd hi hs (e, id) = (e, id).
Proof.
  intros HH. unfold one. cbn [fst snd]. assert (fold_left (stp relaxed) (highs_of hd hi hs) (e, id, 0) = (e, id, 0)) as ->.
  { revert HH. generalize (highs_of hd hi hs). intros l. induction l as [|h l IH]; intros HH; [reflexivity|]. cbn [fold_left]. pose proof (HH h (or_introl eq_refl)) as Hh. unfold stp at 2, best_step. destruct (Z.ltb_spec (fst h) e); [lia|]. destruct (Z.eqb_spec (fst h) e); [lia|]. apply IH. intros x Hx. apply HH. right. exact Hx. }
  unfold best_end. destruct (Z.eqb_spec e (e + 1)); [lia|]. destruct (Z.ltb_spec (e + 1) e); [lia|]. rewrite !andb_false_r. reflexivity.
Qed.
Lemma least_own e x highs : (forall h, In h highs -> e < fst h) -> least e ((e, x) :: highs).
Proof. intros H. split; [exists x; left; reflexivity|]. intros c [<-|Hc]; [cbn [fst]; lia|]. specialize (H c Hc). lia. Qed.
Lemma inferred_again e given highs c : e <= fst given -> (forall h, In h highs -> e < fst h) -> all_or_none given highs -> inferred e given highs c -> inferred e c highs c /\ all_or_none c highs.
Proof.
  intros Hg HH HU (d & id & n & J & A & B).
  assert (inferred e (e, -1) highs (e, -1) /\ all_or_none (e, -1) highs) as K.
  { split.
    - exists e, (-1), (zlen (filter (fun c : class => fst c =? e) highs)). split; [|split; [reflexivity|reflexivity]]. apply joined_one; [apply least_own, HH| |left; reflexivity].
      intros i [E|Hi]; [injection E as <-; left; reflexivity|]. specialize (HH _ Hi). cbn [fst] in HH. lia.
    - intros d' Hd'. assert (d' = e) as -> by (eapply least_unique; [exact Hd'|apply least_own, HH]). left. intros i Hi. specialize (HH _ Hi). cbn [fst] in HH. lia. }
  assert ((d = e + 1 /\ n <> 2 \/ e + 1 < d /\ n < 2) \/ ~ (d = e + 1 /\ n <> 2 \/ e + 1 < d /\ n < 2)) as [Hb|Hb] by lia; [rewrite (A Hb); exact K|]. rewrite (B Hb).
  inversion J as [d1 i1 L1 A1 A2|d1 i1 j1 L1 B1 B2 B3 B4 B5]; subst.
  - assert (least d ((d, id) :: highs)) as L2. { split; [exists id; left; reflexivity|]. intros x [<-|Hx]; [cbn [fst]; lia|]. apply L1. right. exact Hx. }
    split.
    + exists d, id, (zlen (filter (fun c : class => fst c =? d) highs)). split; [|split; [intros; contradiction|reflexivity]]. apply joined_one; [exact L2| |right; left; reflexivity].
      intros i [E|Hi]; [injection E as <-; left; reflexivity|]. apply A1. right. exact Hi.
    + intros d' Hd'. assert (d' = d) as -> by (eapply least_unique; eassumption). destruct (HU d L1) as [U|U]; [left; exact U|]. right. intros i [E|Hi]; [|apply U; right; exact Hi]. injection E as <-. destruct A2 as [|A2]; [assumption|apply U, A2].
  - assert (e + 1 <= d1) as Hd1. { destruct B1 as [B1|B1]; [|specialize (HH _ B1); cbn [fst] in HH; lia]. destruct B2 as [B2|B2]; [congruence|specialize (HH _ B2); cbn [fst] in HH; lia]. }
    assert (d1 - 1 = e) as -> by lia. exact K.
Qed.

Section derived.
Context (T : topology) (t : ctags) (V : valid_topology T) (W : whole_tags T t).
Context (PD : proper_dims T t).
Lemma given_proper d e c : 0 <= d <= t_dim T -> 0 <= e < t_nents T d -> given_class T t d e c -> d <= fst c <= t_dim T.
Proof.
  intros Hd He [H _]. destruct (c_dims t d) as [a|] eqn:E; [|lia]. apply (PD d a (fst c) Hd E). eapply zget_In, H.
Qed.
Lemma dflt_proper d e : 0 <= d <= t_dim T -> 0 <= e < t_nents T d -> d <= at_ (dflt T (c_dims t) d (t_dim T)) e <= t_dim T.
Proof. intros Hd He. apply (given_proper d e (at_ (dflt T (c_dims t) d (t_dim T)) e, at_ (dflt T (c_ids t) d (-1)) e) Hd He). apply (given_at T t W d e _ Hd He). reflexivity. Qed.
Lemma classes_proper k : Z.of_nat k <= t_dim T -> forall e, 0 <= e < t_nents T (t_dim T - Z.of_nat k) -> t_dim T - Z.of_nat k <= at_ (fst (classes T t k)) e <= t_dim T.
Proof.
  induction k as [|k IH]; intros Hk e He.
  - cbn [classes fst]. apply dflt_proper; [lia|exact He].
  - pose proof (below_at T t k e Hk He) as B. cbv zeta in B. set (d := t_dim T - Z.of_nat (S k)) in *. apply (f_equal fst) in B. cbn [fst] in B. rewrite B.
    pose proof (dflt_proper d e ltac:(lia) He) as G. destruct (one_dims d false (fst (classes T t k)) (snd (classes T t k)) (above T d e) (at_ (dflt T (c_dims t) d (t_dim T)) e, at_ (dflt T (c_ids t) d (-1)) e)) as [O _]; [cbn [fst]; lia| |cbn [fst] in O; lia].
    intros h Hh. apply in_map_iff in Hh as (x & <- & Hx). cbn [fst]. pose proof (above_range T d e V ltac:(lia)) as AR. rewrite Forall_forall in AR. specialize (AR x Hx). replace (d + 1) with (t_dim T - Z.of_nat k) in AR by lia. specialize (IH ltac:(lia) x AR). lia.
Qed.
Lemma highs_proper k e : Z.of_nat (S k) <= t_dim T -> let d := t_dim T - Z.of_nat (S k) in forall h, In h (highs_of (fst (classes T t k)) (snd (classes T t k)) (above T d e)) -> d < fst h.
Proof.
  intros Hk d h Hh. apply in_map_iff in Hh as (x & <- & Hx). cbn [fst]. pose proof (above_range T d e V ltac:(lia)) as AR. rewrite Forall_forall in AR. specialize (AR x Hx). replace (d + 1) with (t_dim T - Z.of_nat k) in AR by lia. pose proof (classes_proper k ltac:(lia) x AR). lia.
Qed.
Context (tt : ctags) (F : full T t tt).
Lemma derived_fit d e c : 0 <= d <= t_dim T -> 0 <= e < t_nents T d -> has_class tt d e c -> d <= fst c <= t_dim T.
Proof.
  intros Hd He Hc. apply (class_at T t V W tt d e c F Hd He) in Hc. rewrite Hc. cbn [fst]. pose proof (classes_proper (Z.to_nat (t_dim T - d)) ltac:(lia) e) as P. replace (t_dim T - Z.of_nat (Z.to_nat (t_dim T - d))) with d in P by lia. apply P, He.
Qed.
Lemma below_class d e c : 0 <= d < t_dim T -> 0 <= e < t_nents T d -> has_class tt d e c -> let k := Z.to_nat (t_dim T - (d + 1)) in
  c = one d false (fst (classes T t k)) (snd (classes T t k)) (above T d e) (at_ (dflt T (c_dims t) d (t_dim T)) e, at_ (dflt T (c_ids t) d (-1)) e).
Proof.
  intros Hd He Hc k. apply (class_at T t V W tt d e c F ltac:(lia) He) in Hc. rewrite Hc. replace (Z.to_nat (t_dim T - d)) with (S k) by lia. assert (t_dim T - Z.of_nat (S k) = d) as Ed by lia.
  pose proof (below_at T t k e ltac:(lia)) as B. cbv zeta in B. rewrite Ed in B. apply B, He.
Qed.
Lemma high_in d e h c : 0 <= d < t_dim T -> In h (above T d e) -> has_class tt (d + 1) h c -> let k := Z.to_nat (t_dim T - (d + 1)) in
  In c (highs_of (fst (classes T t k)) (snd (classes T t k)) (above T d e)).
Proof.
  intros Hd Hh Hc k. pose proof (above_range T d e V Hd) as AR. rewrite Forall_forall in AR. apply (class_at T t V W tt (d + 1) h c F ltac:(lia) (AR h Hh)) in Hc. rewrite Hc. apply in_map_iff. exists h. split; [reflexivity|exact Hh].
Qed.
Lemma derived_below d e h c c' : 0 <= d < t_dim T -> 0 <= e < t_nents T d -> In h (above T d e) -> has_class tt d e c -> has_class tt (d + 1) h c' -> fst c <= fst c'.
Proof.
  intros Hd He Hh Hc Hc'. rewrite (below_class d e c Hd He Hc). pose proof (high_in d e h c' Hd Hh Hc') as HI. cbv zeta in HI. pose proof (dflt_proper d e ltac:(lia) He) as G.
  apply one_dims; [cbn [fst]; lia| |exact HI]. intros x Hx. pose proof (highs_proper (Z.to_nat (t_dim T - (d + 1))) e ltac:(lia)) as P. cbv zeta in P. replace (t_dim T - Z.of_nat (S (Z.to_nat (t_dim T - (d + 1))))) with d in P by lia. apply P, Hx.
Qed.
Lemma derived_keeps d e id : 0 <= d <= t_dim T -> 0 <= e < t_nents T d -> given_class T t d e (d, id) -> has_class tt d e (d, id).
Proof.
  intros Hd He Hg. destruct (Z.eq_dec d (t_dim T)) as [E|N].
  - destruct (full_derived T t V W tt F) as (_ & D & _). rewrite E in *. apply D; assumption.
  - apply (class_at T t V W tt d e _ F Hd He). apply (given_at T t W d e _ Hd He) in Hg. set (k := Z.to_nat (t_dim T - (d + 1))). replace (Z.to_nat (t_dim T - d)) with (S k) by lia. assert (t_dim T - Z.of_nat (S k) = d) as Ed by lia.
    pose proof (below_at T t k e ltac:(lia)) as B. cbv zeta in B. rewrite Ed in B. rewrite (B He), <- Hg. symmetry. apply one_kept. intros x Hx. pose proof (highs_proper k e ltac:(lia)) as P. cbv zeta in P. rewrite Ed in P. apply P, Hx.
Qed.
Lemma derived_same_id d e h c c' : 0 <= d < t_dim T -> 0 <= e < t_nents T d -> known_around T t tt -> In h (above T d e) -> has_class tt d e c -> has_class tt (d + 1) h c' -> fst c = fst c' -> snd c = snd c'.
Proof.
  intros Hd He HU Hh Hc Hc' E. set (k := Z.to_nat (t_dim T - (d + 1))). set (highs := highs_of (fst (classes T t k)) (snd (classes T t k)) (above T d e)). set (given := (at_ (dflt T (c_dims t) d (t_dim T)) e, at_ (dflt T (c_ids t) d (-1)) e)).
  assert (given_class T t d e given) as Hg by (apply (given_at T t W d e _ ltac:(lia) He); reflexivity). pose proof (full_highs T t V W tt d e F Hd) as HH. fold k in HH. fold highs in HH.
  pose proof (HU d e given highs Hd He Hg HH) as U. destruct (full_derived T t V W tt F) as (_ & _ & D). pose proof (D d e given highs c Hd He Hg HH Hc U) as (x & id & n & J & A & B). pose proof (high_in d e h c' Hd Hh Hc') as HI. cbv zeta in HI. fold k in HI. fold highs in HI.
  assert (forall y, In y highs -> d < fst y) as HP. { intros y Hy. pose proof (highs_proper k e ltac:(lia)) as P. cbv zeta in P. replace (t_dim T - Z.of_nat (S k)) with d in P by lia. apply P, Hy. }
  pose proof (HP c' HI) as Hc1. assert ((x = d + 1 /\ n <> 2 \/ d + 1 < x /\ n < 2) \/ ~ (x = d + 1 /\ n <> 2 \/ d + 1 < x /\ n < 2)) as [Hb|Hb] by lia; [rewrite (A Hb) in E; cbn [fst] in E; lia|].
  rewrite (B Hb) in E |- *. cbn [fst snd] in *. inversion J as [d1 i1 L1 A1 A2|d1 i1 j1 L1 B1 B2 B3 B4 B5]; subst x id n.
  - destruct c' as [x y]. cbn [fst snd] in *. subst d1. destruct (A1 y (or_intror HI)) as [->| ->]; [reflexivity|]. destruct (U x L1) as [U1|U1]; [exfalso; apply (U1 (-1) HI); reflexivity|]. destruct A2 as [|A2]; [assumption|apply U1, A2].
  - exfalso. destruct L1 as [_ L1]. specialize (L1 c' (or_intror HI)). lia.
Qed.
Lemma derived_sides s c : c_dims t (t_dim T - 1) = None -> c_ids t (t_dim T - 1) = None -> (forall e c, 0 <= e < t_nents T (t_dim T) -> has_class tt (t_dim T) e c -> snd c <> -1) ->
  0 <= s < t_nents T (t_dim T - 1) -> has_class tt (t_dim T - 1) s c ->
  (exists a b i, above T (t_dim T - 1) s = [a; b] /\ has_class tt (t_dim T) a (t_dim T, i) /\ has_class tt (t_dim T) b (t_dim T, i) /\ c = (t_dim T, i)) \/
  ((forall a b i, above T (t_dim T - 1) s = [a; b] -> has_class tt (t_dim T) a (t_dim T, i) -> ~ has_class tt (t_dim T) b (t_dim T, i)) /\ c = (t_dim T - 1, -1)).
Proof.
  intros N1 N2 HK Hs Hc. pose proof (v_dim T V) as HD. set (d := t_dim T - 1) in *. assert (d + 1 = t_dim T) as Ed by lia.
  set (k := Z.to_nat (t_dim T - (d + 1))). set (hs := above T d s) in *. set (highs := highs_of (fst (classes T t k)) (snd (classes T t k)) hs).
  assert (given_class T t d s (t_dim T, -1)) as Hg by (unfold given_class; rewrite N1, N2; auto). pose proof (full_highs T t V W tt d s F ltac:(lia)) as HH. fold k in HH. fold hs in HH. fold highs in HH.
  pose proof (above_range T d s V ltac:(lia)) as AR. fold hs in AR. rewrite Ed in HH, AR.
  assert (forall x, In x highs -> fst x = t_dim T /\ snd x <> -1) as HX.
  { intros x Hx. destruct (In_zget _ _ Hx) as (i & Hi). destruct (in_map_iff (fun h => (at_ (fst (classes T t k)) h, at_ (snd (classes T t k)) h)) hs x) as [M _]. destruct (M Hx) as (h & Eh & Hh). rewrite Forall_forall in AR. specialize (AR h Hh).
    assert (has_class tt (t_dim T) h x) as HC. { apply (class_at T t V W tt (t_dim T) h x F ltac:(lia) AR). rewrite <- Eh. unfold k. rewrite Ed. reflexivity. }
    split; [pose proof (derived_fit (t_dim T) h x ltac:(lia) AR HC); lia|apply (HK h x AR HC)]. }
  assert (forall x, In x ((t_dim T, -1) :: highs) -> fst x = t_dim T) as HX'. { intros x [<-|Hx]; [reflexivity|apply HX, Hx]. }
  assert (forall y, least y ((t_dim T, -1) :: highs) -> y = t_dim T) as HL. { intros y [[i Hi] _]. apply HX' in Hi. exact Hi. }
  assert (all_or_none (t_dim T, -1) highs) as U. { intros y Hy. left. intros i Hi. apply HX in Hi. apply Hi. }
  destruct (full_derived T t V W tt F) as (_ & _ & D). assert (Forall2 (has_class tt (d + 1)) (above T d s) highs) as HH' by (rewrite Ed; exact HH).
  pose proof (D d s (t_dim T, -1) highs c ltac:(lia) Hs Hg HH' Hc U) as (x & id & n & J & A & B).
  assert (zlen highs = zlen hs) as LH by (unfold highs, highs_of; apply zlen_map). clear HH' D Hg. clearbody highs hs.
  assert (forall a b i, hs = [a; b] -> has_class tt (t_dim T) a (t_dim T, i) -> has_class tt (t_dim T) b (t_dim T, i) -> highs = [(t_dim T, i); (t_dim T, i)]) as H2.
  { intros a b i Eh Ha Hb. rewrite Eh in HH, AR. inversion HH as [|? ca ? l1 Qa Q1 X1 X2]. inversion Q1 as [|? cb ? l2 Qb Q2 X3 X4]. inversion Q2 as [X5 X6|]. inversion AR as [|? ? Ra AR1 X7]. inversion AR1 as [|? ? Rb X8 X9].
    apply (class_at T t V W tt (t_dim T) a _ F ltac:(lia) Ra) in Ha, Qa. apply (class_at T t V W tt (t_dim T) b _ F ltac:(lia) Rb) in Hb, Qb. congruence. }
  inversion J as [d1 i1 L1 A1 A2|d1 i1 j1 L1 B1 B2 B3 B4 B5]; subst x id n; assert (d1 = t_dim T) as -> by (apply HL, L1).
  - assert (zlen (filter (fun c : class => fst c =? t_dim T) highs) = zlen highs) as LF. { f_equal. clear -HX. induction highs as [|x l IH]; [reflexivity|]. cbn [filter]. rewrite (proj1 (HX x (or_introl eq_refl))), Z.eqb_refl. f_equal. apply IH. intros y Hy. apply HX. right. exact Hy. }
    rewrite LF in *. destruct (Z.eq_dec (zlen highs) 2) as [E2|N].
    + left. destruct hs as [|a [|b [|z hs']]]; rewrite ?zlen_cons, ?zlen_nil in LH; try (pose proof (zlen_nonneg hs'); lia); try lia. inversion HH as [|? ca ? l1 Qa Q1]; subst. inversion Q1 as [|? cb ? l2 Qb Q2]; subst. inversion Q2; subst.
      rewrite B in * by lia. exists a, b, i1. split; [reflexivity|].
      assert (forall z, In z [ca; cb] -> z = (t_dim T, i1)) as HZ. { intros z Hz. destruct (HX z Hz) as [Z1 Z2]. destruct z as [z1 z2]. cbn [fst snd] in *. subst z1. destruct (A1 z2 (or_intror Hz)); congruence. }
      assert (ca = (t_dim T, i1)) as Eca by (apply HZ; left; reflexivity). assert (cb = (t_dim T, i1)) as Ecb by (apply HZ; right; left; reflexivity).
      split; [rewrite <- Eca; exact Qa|]. split; [rewrite <- Ecb; exact Qb|reflexivity].
    + right. split; [|apply A; lia]. intros a b i Eh Ha Hb. apply N. rewrite (H2 a b i Eh Ha Hb). reflexivity.
  - right. split; [|rewrite B; [f_equal; lia|lia]]. intros a b i Eh Ha Hb. rewrite (H2 a b i Eh Ha Hb) in B1, B2. cbn [In] in B1, B2. destruct B1 as [B1|[B1|[B1|[]]]], B2 as [B2|[B2|[B2|[]]]]; congruence.
Qed.
End derived.
