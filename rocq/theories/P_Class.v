(** Proofs about classification. *)
From Coq Require Import Permutation.
From Verif Require Import Prelude M_Array P_Dist P_Dist3 P_Unique M_Map P_Map M_Template M_Align M_Adj S_Adj M_Graph S_Graph P_Graph S_Unique M_Match S_Match P_Match M_MeshAdj S_MeshAdj P_MeshAdj P_MeshAdj2 P_MeshAdj3 M_Build S_Build P_Build P_Box M_Class S_Class.
Local Open Scope Z_scope.

(** ** The loop over the entities around *)
Definition stp (relaxed : bool) (st : Z * Z * Z) (h : class) : Z * Z * Z := best_step relaxed st (fst h) (snd h).
Definition level (D : Z) (given : class) (P : list class) (st : Z * Z * Z) : Prop :=
  (exists id, (forall i, In (D, i) (given :: P) -> i = id \/ i = -1) /\ (id = -1 \/ In (D, id) (given :: P)) /\ st = (D, id, zlen (filter (fun c => fst c =? D) P))) \/
  (exists i j, In (D, i) (given :: P) /\ In (D, j) (given :: P) /\ i <> j /\ i <> -1 /\ j <> -1 /\ st = (D - 1, -1, 0)).
Definition none_at (D : Z) (given : class) (P : list class) (st : Z * Z * Z) : Prop :=
  (forall i, ~ In (D, i) (given :: P)) /\ let '(bd, bi, n) := st in D <= bd /\ (bd = D -> bi = -1 /\ n = 0).

Lemma loop_level relaxed given D highs P : (forall c, In c (given :: highs) -> D <= fst c) ->
  (relaxed = true \/ (forall i, In (D, i) highs -> i <> -1) \/ (forall i, In (D, i) (given :: highs) -> i = -1)) ->
  (forall x, In x P -> In x highs) ->
  let st := fold_left (stp relaxed) P (fst given, snd given, 0) in
  none_at D given P st \/ ((exists i, In (D, i) (given :: P)) /\ level D given P st).
Proof.
  intros HD HU. induction P as [|x P IH] using rev_ind; intros HP st.
  - subst st. cbn [fold_left]. destruct given as [gd gi]. cbn [fst snd]. pose proof (HD (gd, gi) (or_introl eq_refl)) as Hg. cbn [fst] in Hg. destruct (Z.eq_dec gd D) as [->|N].
    + right. split; [exists gi; left; reflexivity|]. left. exists gi. split; [intros i [E|[]]; injection E as <-; left; reflexivity|]. split; [right; left; reflexivity|reflexivity].
    + left. split; [intros i [E|[]]; injection E as E _; congruence|]. split; [lia|congruence].
  - assert (forall x, In x P -> In x highs) as HP' by (intros y Hy; apply HP, in_or_app; left; exact Hy). specialize (IH HP'). cbv zeta in IH.
    subst st. rewrite fold_left_app. cbn [fold_left]. set (st := fold_left (stp relaxed) P (fst given, snd given, 0)) in *. clearbody st.
    assert (In x highs) as Hx by (apply HP, in_or_app; right; left; reflexivity). pose proof (HD x (or_intror Hx)) as Hd. destruct x as [hd hi]. cbn [fst] in Hd. destruct st as [[bd bi] n]. unfold stp, best_step. cbn [fst snd].
    assert (forall y, In y (given :: P ++ [(hd, hi)]) <-> In y (given :: P) \/ y = (hd, hi)) as HI. { intros y. cbn [In]. rewrite in_app_iff. cbn [In]. intuition. }
    destruct (Z.eq_dec hd D) as [->|N].
    + right. split; [exists hi; apply HI; right; reflexivity|]. destruct IH as [[H1 [H2 H3]]|[_ [(id & A1 & A2 & A3)|(i & j & B1 & B2 & B3 & B4 & B5 & B6)]]].
      * assert (zlen (filter (fun c : class => fst c =? D) (P ++ [(D, hi)])) = 1) as Ln.
        { rewrite filter_app, zlen_app. cbn [filter fst]. rewrite Z.eqb_refl, zlen_cons, zlen_nil. enough (filter (fun c : class => fst c =? D) P = []) as -> by reflexivity.
          destruct (filter (fun c : class => fst c =? D) P) as [|[y1 y2] l] eqn:E; [reflexivity|]. exfalso. assert (In (y1, y2) ((y1, y2) :: l)) as Hy by (left; reflexivity). rewrite <- E in Hy. apply filter_In in Hy as [Hy1 Hy2]. cbn [fst] in Hy2. apply Z.eqb_eq in Hy2. subst y1. apply (H1 y2). right. exact Hy1. }
        left. exists hi. split; [|split].
        -- intros i Hi. apply HI in Hi as [Hi|Hi]; [destruct (H1 i Hi)|]. injection Hi as ->. left. reflexivity.
        -- right. apply HI. right. reflexivity.
        -- rewrite Ln. destruct (Z.ltb_spec D bd) as [|G]; [reflexivity|]. assert (bd = D) as -> by lia. destruct (H3 eq_refl) as [-> ->]. rewrite Z.eqb_refl.
           destruct (Z.eqb_spec hi (-1)) as [->|]; cbn [negb andb]; [reflexivity|]. rewrite orb_true_r. reflexivity.
      * injection A3 as -> -> ->. rewrite Z.ltb_irrefl, Z.eqb_refl.
        assert (zlen (filter (fun c : class => fst c =? D) (P ++ [(D, hi)])) = zlen (filter (fun c : class => fst c =? D) P) + 1) as LF. { rewrite filter_app, zlen_app. cbn [filter fst]. rewrite Z.eqb_refl. reflexivity. } unfold level. rewrite LF.
        destruct (Z.eqb_spec hi id) as [->|Ne]; cbn [negb andb].
        -- left. exists id. split; [intros i Hi; apply HI in Hi as [Hi|Hi]; [apply A1, Hi|injection Hi as ->; left; reflexivity]|]. split; [right; apply HI; right; reflexivity|reflexivity].
        -- destruct (Z.eqb_spec id (-1)) as [->|Ni].
           ++ destruct (Z.eqb_spec hi (-1)) as [|_]; [congruence|]. cbn [negb]. rewrite orb_true_r. left. exists hi. split; [|split; [right; apply HI; right; reflexivity|reflexivity]].
              intros i Hi. apply HI in Hi as [Hi|Hi]; [destruct (A1 i Hi); right; assumption|injection Hi as ->; left; reflexivity].
           ++ destruct A2 as [A2|A2]; [congruence|]. destruct (Z.eqb_spec hi (-1)) as [->|Nh]; cbn [negb].
              ** assert (relaxed = true) as ->.
                 { destruct HU as [|[HU|HU]]; [assumption|exfalso; apply (HU (-1)); [exact Hx|reflexivity]|]. exfalso. apply Ni, HU. destruct A2 as [A2|A2]; [left; exact A2|right; apply HP', A2]. }
                 cbn [negb orb]. left. exists id. split; [intros i Hi; apply HI in Hi as [Hi|Hi]; [apply A1, Hi|injection Hi as ->; right; reflexivity]|]. split; [right; apply HI; left; exact A2|reflexivity].
              ** rewrite orb_true_r. right. exists id, hi. split; [apply HI; left; exact A2|]. split; [apply HI; right; reflexivity|]. repeat split; congruence.
      * injection B6 as -> -> ->. destruct (Z.ltb_spec D (D - 1)); [lia|]. destruct (Z.eqb_spec D (D - 1)); [lia|]. right. exists i, j. split; [apply HI; left; exact B1|]. split; [apply HI; left; exact B2|]. repeat split; assumption.
    + assert (zlen (filter (fun c : class => fst c =? D) (P ++ [(hd, hi)])) = zlen (filter (fun c : class => fst c =? D) P)) as LF. { rewrite filter_app, zlen_app. cbn [filter fst]. destruct (Z.eqb_spec hd D); [contradiction|]. rewrite zlen_nil. lia. }
      destruct IH as [[H1 [H2 H3]]|[[i0 I0] IH]].
      * left. split; [intros i Hi; apply HI in Hi as [Hi|Hi]; [apply (H1 i Hi)|injection Hi as E _; congruence]|].
        destruct (Z.ltb_spec hd bd); [split; [lia|congruence]|]. destruct (Z.eqb_spec hd bd) as [->|]; [|split; assumption].
        destruct (negb (hi =? bi) && _); [|split; [lia|congruence]]. destruct (bi =? -1); split; try lia; auto.
      * right. split; [exists i0; apply HI; left; exact I0|]. assert (bd <= D) as Hb. { destruct IH as [(? & _ & _ & E)|(? & ? & _ & _ & _ & _ & _ & E)]; injection E as -> _ _; lia. }
        destruct (Z.ltb_spec hd bd); [lia|]. destruct (Z.eqb_spec hd bd); [lia|]. destruct IH as [(id & A1 & A2 & A3)|(i & j & B1 & B2 & B3)].
        -- left. exists id. split; [intros i Hi; apply HI in Hi as [Hi|Hi]; [apply A1, Hi|injection Hi as E _; congruence]|]. split; [destruct A2; [left; assumption|right; apply HI; left; assumption]|]. rewrite LF. exact A3.
        -- right. exists i, j. split; [apply HI; left; exact B1|]. split; [apply HI; left; exact B2|exact B3].
Qed.

Lemma least_exists cs : cs <> [] -> exists d, least d cs.
Proof.
  induction cs as [|[x i] cs IH]; [congruence|]. intros _. destruct cs as [|c cs]; [exists x; split; [exists i; left; reflexivity|]; intros c [<-|[]]; cbn [fst]; lia|].
  destruct IH as (d & (j & Hj) & Hd); [discriminate|]. destruct (Z_le_dec x d).
  - exists x. split; [exists i; left; reflexivity|]. intros y [<-|Hy]; [cbn [fst]; lia|]. specialize (Hd y Hy). lia.
  - exists d. split; [exists j; right; exact Hj|]. intros y [<-|Hy]; [cbn [fst]; lia|apply Hd, Hy].
Qed.
Lemma least_unique d d' cs : least d cs -> least d' cs -> d = d'.
Proof. intros [[i Hi] H] [[j Hj] H']. specialize (H _ Hj). specialize (H' _ Hi). cbn [fst] in *. lia. Qed.

Lemma loop_joined relaxed given highs : relaxed = true \/ all_or_none given highs ->
  let '(d, id, n) := fold_left (stp relaxed) highs (fst given, snd given, 0) in joined given highs d id n.
Proof.
  intros HU. destruct (least_exists (given :: highs)) as (D & HL); [discriminate|]. pose proof HL as [[i Hi] HD].
  destruct (loop_level relaxed given D highs highs HD) as [[N _]|[_ L]]; [destruct HU as [|HU]; [left; assumption|right; apply HU, HL]|auto|exfalso; apply (N i Hi)|].
  destruct (fold_left _ _ _) as [[d id] n]. destruct L as [(x & A1 & A2 & A3)|(x & y & B1 & B2 & B3 & B4 & B5 & B6)].
  - injection A3 as -> -> ->. apply joined_one; assumption.
  - injection B6 as -> -> ->. apply (joined_more given highs D x y); assumption.
Qed.
Lemma joined_unique given highs d id n d' id' n' : joined given highs d id n -> joined given highs d' id' n' -> d = d' /\ id = id' /\ n = n'.
Proof.
  intros H H'. inversion H as [d1 i1 L1 A1 A2|d1 i1 j1 L1 B1 B2 B3 B4 B5]; subst; inversion H' as [d2 i2 L2 C1 C2|d2 i2 j2 L2 D1 D2 D3 D4 D5]; subst.
  - assert (d' = d) as -> by (eapply least_unique; eassumption). split; [reflexivity|]. split; [|reflexivity].
    destruct L1 as [[i Hi] _]. destruct A2 as [->|A2].
    + destruct C2 as [->|C2]; [reflexivity|]. destruct (A1 _ C2); congruence.
    + destruct (C1 _ A2) as [| ->]; [assumption|]. destruct C2 as [->|C2]; [reflexivity|]. destruct (A1 _ C2); congruence.
  - assert (d2 = d) as -> by (eapply least_unique; eassumption). destruct (A1 _ D1), (A1 _ D2); congruence.
  - assert (d' = d1) as -> by (eapply least_unique; eassumption). destruct (C1 _ B1), (C1 _ B2); congruence.
  - assert (d2 = d1) as -> by (eapply least_unique; eassumption). auto.
Qed.
Lemma inferred_end e given highs d id n : joined given highs d id n -> inferred e given highs (best_end e (d, id, n)).
Proof.
  intros J. exists d, id, n. split; [exact J|]. unfold best_end. destruct (Z.eqb_spec n 2), (Z.eqb_spec d (e + 1)), (Z.ltb_spec n 2), (Z.ltb_spec (e + 1) d); cbn [negb andb orb]; split; intros K; try reflexivity; exfalso; try lia; apply K; lia.
Qed.
Lemma inferred_unique e given highs c c' : inferred e given highs c -> inferred e given highs c' -> c = c'.
Proof.
  intros (d & id & n & J & A & B) (d' & id' & n' & J' & A' & B'). destruct (joined_unique _ _ _ _ _ _ _ _ J J') as (-> & -> & ->).
  assert ((d' = e + 1 /\ n' <> 2 \/ e + 1 < d' /\ n' < 2) \/ ~ (d' = e + 1 /\ n' <> 2 \/ e + 1 < d' /\ n' < 2)) as [H|H] by lia; [rewrite A, A' by exact H|rewrite B, B' by exact H]; reflexivity.
Qed.
Lemma joined_perm given highs highs' d id n : Permutation highs highs' -> joined given highs d id n -> joined given highs' d id n.
Proof.
  intros P J. assert (forall x, In x (given :: highs) <-> In x (given :: highs')) as HI. { intros x. cbn [In]. split; intros [|H]; auto; right; eapply Permutation_in; try exact H; [exact P|apply Permutation_sym, P]. }
  assert (forall d, least d (given :: highs) -> least d (given :: highs')) as HL. { intros x [[i Hi] H]. split; [exists i; apply HI, Hi|]. intros c Hc. apply H, HI, Hc. }
  inversion J as [d1 i1 L1 A1 A2|d1 i1 j1 L1 B1 B2 B3 B4 B5]; subst.
  - replace (zlen (filter (fun c : class => fst c =? d) highs)) with (zlen (filter (fun c : class => fst c =? d) highs')).
    + apply joined_one; [apply HL, L1|intros i Hi; apply A1, HI, Hi|destruct A2; [left; assumption|right; apply HI; assumption]].
    + unfold zlen. f_equal. symmetry. apply Permutation_length. clear -P. induction P as [|x l l' P IH|x y l|l1 l2 l3 P1 IH1 P2 IH2]; cbn [filter]; [constructor|destruct (fst x =? d); [constructor; exact IH|exact IH]| |eapply Permutation_trans; eassumption].
      destruct (fst x =? d), (fst y =? d); try apply Permutation_refl. apply perm_swap.
  - apply (joined_more given highs' d1 i1 j1); try assumption; [apply HL, L1|apply HI, B1|apply HI, B2].
Qed.
Lemma inferred_perm e given highs highs' c : Permutation highs highs' -> inferred e given highs c -> inferred e given highs' c.
Proof. intros P (d & id & n & J & K). exists d, id, n. split; [eapply joined_perm; eassumption|exact K]. Qed.

(** ** One entity *)
Definition at_ (l : list Z) (i : Z) : Z := nth (Z.to_nat i) l 0.
Lemma at_get l i : 0 <= i < zlen l -> zget l i = Ok (at_ l i).
Proof. intros H. destruct (zget_in_range l i H) as (x & E). rewrite E. f_equal. apply zget_ok in E as [_ E]. symmetry. apply nth_error_nth, E. Qed.
Lemma get_at l i x : zget l i = Ok x -> x = at_ l i.
Proof. intros E. pose proof (zget_bounds _ _ _ E) as B. rewrite (at_get l i B) in E. congruence. Qed.

Lemma foldM_through {A S} (F : S -> A -> res S) (g : Z -> res A) ks hs : mapM g ks = Ok hs -> forall st, foldM (fun st k => h <- g k ;; F st h) ks st = foldM F hs st.
Proof.
  revert hs. induction ks as [|k ks IH]; intros hs E st; cbn [mapM] in E; [injection E as <-; reflexivity|]. apply bind_ok in E as (h & Eh & E). apply bind_ok in E as (hs' & Es & E). injection E as <-.
  cbn [foldM]. rewrite Eh. cbn [bind]. destruct (F st h); cbn [bind]; auto.
Qed.
Definition highs_of (hd hi : list Z) (hs : list Z) : list class := map (fun h => (at_ hd h, at_ hi h)) hs.
Definition one (e : Z) (relaxed : bool) (hd hi hs : list Z) (given : class) : class := best_end e (fold_left (stp relaxed) (highs_of hd hi hs) (fst given, snd given, 0)).
Lemma foldM_highs relaxed hd hi hs : zlen hi = zlen hd -> Forall (fun h => 0 <= h < zlen hd) hs -> forall st,
  foldM (fun st h => high_dim <- zget hd h ;; high_id <- zget hi h ;; Ok (best_step relaxed st high_dim high_id)) hs st = Ok (fold_left (stp relaxed) (highs_of hd hi hs) st).
Proof.
  intros L. induction 1 as [|h hs Hh _ IH]; intros st; [reflexivity|]. cbn [foldM highs_of map fold_left]. rewrite (at_get hd), (at_get hi) by lia. cbn [bind]. apply IH.
Qed.
Lemma project_one_ok e relaxed l2h hd hi dims ids l hs : zlen hi = zlen hd -> 0 <= l < zlen dims -> zlen ids = zlen dims -> adj_targets l2h l = Ok hs -> Forall (fun h => 0 <= h < zlen hd) hs ->
  project_one e relaxed l2h hd hi dims ids l = Ok (one e relaxed hd hi hs (at_ dims l, at_ ids l)).
Proof.
  intros L Hl Li Ht HF. unfold project_one. rewrite (at_get dims), (at_get ids) by lia. cbn [bind]. unfold adj_targets, targets in Ht. cbn [a2ab ab2b] in Ht.
  apply bind_ok in Ht as (lo & E1 & Ht). apply bind_ok in Ht as (h' & E2 & Ht). rewrite E1, E2. cbn [bind].
  rewrite (foldM_through (fun st h => high_dim <- zget hd h ;; high_id <- zget hi h ;; Ok (best_step relaxed st high_dim high_id)) _ _ _ Ht), foldM_highs by assumption. reflexivity.
Qed.
Lemma one_inferred e relaxed hd hi hs given : relaxed = true \/ all_or_none given (highs_of hd hi hs) -> inferred e given (highs_of hd hi hs) (one e relaxed hd hi hs given).
Proof. intros H. pose proof (loop_joined relaxed given _ H) as J. unfold one. destruct (fold_left _ _ _) as [[d id] n]. apply inferred_end, J. Qed.

(** the result for one entity, from what the two arrays say *)
Lemma project_one_read e relaxed l2h hd hi dims ids l r : project_one e relaxed l2h hd hi dims ids l = Ok r ->
  exists hs, adj_targets l2h l = Ok hs /\ 0 <= l < zlen dims /\ 0 <= l < zlen ids /\ Forall (fun h => 0 <= h < zlen hd /\ 0 <= h < zlen hi) hs.
Proof.
  unfold project_one. intros H. apply bind_ok in H as (x & E1 & H). apply bind_ok in H as (y & E2 & H). apply bind_ok in H as (lo & E3 & H). apply bind_ok in H as (h' & E4 & H). apply bind_ok in H as (st & E5 & _).
  unfold adj_targets, targets. cbn [a2ab ab2b]. rewrite E3, E4. cbn [bind]. pose proof (zget_bounds _ _ _ E1). pose proof (zget_bounds _ _ _ E2).
  enough (exists hs, mapM (zget (adj_ab2b l2h)) (zfromto lo h') = Ok hs /\ Forall (fun h => 0 <= h < zlen hd /\ 0 <= h < zlen hi) hs) as (hs & A & B) by (exists hs; auto).
  revert E5. generalize (x, y, 0). generalize (zfromto lo h'). intros ks. induction ks as [|k ks IH]; intros s E; [exists []; split; [reflexivity|constructor]|].
  cbn [foldM] in E. apply bind_ok in E as (s' & F & E). apply bind_ok in F as (h & F1 & F). apply bind_ok in F as (a & F2 & F). apply bind_ok in F as (b & F3 & F).
  destruct (IH s' E) as (hs & A & B). exists (h :: hs). cbn [mapM]. rewrite F1, A. cbn [bind]. split; [reflexivity|]. constructor; [split; eapply zget_bounds; eassumption|exact B].
Qed.

(** ** One dimension *)
Lemma up_answer T fin c m d : valid_topology T -> (fin = true -> finishes T c) -> ready T m -> 0 <= d < t_dim T -> good fin (ask_up c m d (d + 1)) /\
  forall r, ask_up c m d (d + 1) = Ok (Some r) -> ready T (fst r) /\ (forall e, 0 <= e < t_nents T d -> adj_targets (snd r) e = Ok (above T d e)).
Proof.
  intros V Hfin R Hd. pose proof (v_dim T V) as HD. assert (answerable T d (d + 1)) as HA by (split; [lia|]; split; [lia|]; left; lia).
  unfold ask_up. destruct (Z.ltb_spec d (d + 1)); [|lia]. cbn [check bind]. split.
  - apply (ask_good T V fin c Hfin 6 m d (d + 1) R HA). unfold rank. destruct (Z.ltb_spec (d + 1) d); [lia|]. destruct (Z.ltb_spec d (d + 1)); lia.
  - intros r E. destruct (ask_inv T V c 6 m d (d + 1) r (proj1 R) E) as [I VA]. split.
    + split; [exact I|]. intros k Hk. destruct (ask_keeps 6 c m d (d + 1) _ E) as (_ & N & _). rewrite N. apply R, Hk.
    + destruct (up_facts T V d (d + 1) ltac:(lia) ltac:(lia)) as (dn & up & Ed & Eu & _ & LU & _). rewrite val_up in VA by lia. assert (up = snd r) as -> by congruence.
      unfold downv in Ed. destruct (Z.eqb_spec d (d + 1 - 1)) as [_|]; [|lia]. injection Ed as <-. intros e He. apply LU, He.
Qed.
Lemma above_range T d e : valid_topology T -> 0 <= d < t_dim T -> Forall (fun h => 0 <= h < t_nents T (d + 1)) (above T d e).
Proof.
  intros V Hd. pose proof (v_dim T V) as HD. unfold above. apply Forall_map, Forall_forall. intros u Hu. apply filter_In in Hu as [Hu _]. apply in_zrange in Hu.
  destruct (down_facts T V (d + 1) d ltac:(lia) ltac:(lia)) as (dn & Ed & _ & _ & Ld & _). unfold downv in Ed. destruct (Z.eqb_spec d (d + 1 - 1)); [|lia]. injection Ed as <-. rewrite Ld in Hu.
  pose proof (degree_pos (t_family T) (d + 1) d ltac:(lia) ltac:(lia)) as Hp. split; [apply Z.div_pos; lia|]. apply Z.div_lt_upper_bound; [lia|]. nia.
Qed.

Definition row_of (T : topology) (d : Z) (relaxed : bool) (hd hi dims ids : list Z) : list class :=
  map (fun e => one d relaxed hd hi (above T d e) (at_ dims e, at_ ids e)) (zrange (t_nents T d)).
Lemma project_ok T fin c m t d dims ids relaxed hd hi : valid_topology T -> (fin = true -> finishes T c) -> ready T m -> 0 <= d < t_dim T ->
  c_dims t (d + 1) = Some hd -> c_ids t (d + 1) = Some hi -> zlen hd = t_nents T (d + 1) -> zlen hi = t_nents T (d + 1) -> zlen dims = t_nents T d -> zlen ids = t_nents T d ->
  good fin (project_classification c m t d dims ids relaxed) /\
  forall r, project_classification c m t d dims ids relaxed = Ok (Some r) -> ready T (fst r) /\ snd r = (map fst (row_of T d relaxed hd hi dims ids), map snd (row_of T d relaxed hd hi dims ids)).
Proof.
  intros V Hfin R Hd E1 E2 L1 L2 L3 L4. destruct (up_answer T fin c m d V Hfin R Hd) as [G K]. pose proof (v_nents T V d ltac:(lia)) as VN.
  assert (forall r, ask_up c m d (d + 1) = Ok (Some r) -> tabulate (a_nents m d) (project_one d relaxed (snd r) hd hi dims ids) = Ok (row_of T d relaxed hd hi dims ids)) as KT.
  { intros r Er. destruct (K r Er) as [R' HT]. rewrite (ready_nents T m d R) by lia. apply tabulate_ok; [exact VN|]. unfold row_of. split; [rewrite zlen_map, zlen_zrange; lia|].
    intros e He. rewrite zget_map, zget_zrange by exact He. cbn [bind]. eexists. split; [|reflexivity]. apply project_one_ok; try lia; [apply HT, He|].
    eapply Forall_impl; [|apply (above_range T d e V Hd)]. cbn beta. intros. lia. }
  unfold project_classification. split.
  - apply good_bindo; [exact G|]. intros r Er. unfold get_tag. rewrite E1, E2. cbn [bind]. rewrite (KT r Er). cbn [bind]. apply good_ok.
  - intros r Er. apply bindo_some in Er as (a & Ea & Er). unfold get_tag in Er. rewrite E1, E2 in Er. cbn [bind] in Er. rewrite (KT a Ea) in Er. cbn [bind] in Er. injection Er as <-. cbn [fst snd]. split; [apply (K a Ea)|reflexivity].
Qed.
