(** Choosing what to collapse: the rails, and the operation. *)
From Coq Require Import String Permutation Sorted.
From Verif Require Import Prelude M_Array P_Array M_Par M_Scan P_Fan S_Sort M_Sort M_Map S_Map P_Map P_Map2 M_Template S_Template P_Template M_Align S_Align P_Align M_Graph S_Graph P_Graph M_Unique S_Unique P_Unique M_Adj S_Adj P_Adj S_Transit P_Transit S_Across P_Across
  M_Match S_Match P_Match M_Tags M_MeshAdj S_MeshAdj P_MeshAdj P_MeshAdj2 P_MeshAdj3 M_Build S_Build P_Build P_Box S_Unmap P_Unmap P_Mark M_Coarsen S_Coarsen P_Dead P_Coarsen
  M_Modify S_Modify P_Modify P_Modify2 S_Swap3d M_RefineMesh S_RefineMesh S_Rebuild P_Rebuild P_Rebuild2 P_Rebuild3 P_RefineMesh1 P_RefineMesh2 P_RefineMesh4 P_RefineMesh5 P_RefineMesh6 P_RefineMesh8 P_Flip4 S_Patch P_Patch M_Collapse S_Collapse P_Collapse1 P_Collapse2 P_Collapse3 M_Choose S_Choose P_Choose1 P_Choose2.
Local Open Scope Z_scope.

Section rails.
Context {L Q : Type} (shorter same : L -> L -> bool) (higher : Q -> Q -> bool) (globals : list Z) (lengths : list L) (qual : Z -> Z -> Q).
(** the best of what was seen *)
Definition fits_best (seen : list (Z * Z)) (b : option (Z * L * Q)) : Prop :=
  match b with
  | None => seen = []
  | Some (g, l, q) => exists k i, In (k, i) seen /\ zget globals k = Ok g /\ zget lengths k = Ok l /\ q = qual k i /\
      (compares shorter same higher -> forall k' i' l', In (k', i') seen -> zget lengths k' = Ok l' -> shorter l' l = false /\ (same l' l = true -> higher (qual k' i') q = false))
  end.
Lemma better_fits seen b k i g l : (forall x, In x globals -> 0 <= x) -> fits_best seen b -> zget globals k = Ok g -> zget lengths k = Ok l -> fits_best ((k, i) :: seen) (better shorter same higher g l (qual k i) b).
Proof.
  intros HG F Eg El. unfold better. destruct b as [[[bg bl] bq]|].
  - destruct F as (k0 & i0 & I0 & Eg0 & El0 & -> & B). pose proof (HG bg (zget_In _ _ _ Eg0)) as Gb. destruct (Z.eqb_spec bg (-1)) as [|_]; [lia|]. cbn [orb]. destruct (shorter l bl) eqn:S1; cbn [orb]; [|destruct (same l bl) eqn:S2; cbn [andb]; [destruct (higher (qual k i) (qual k0 i0)) eqn:S3|]].
    + exists k, i. split; [left; reflexivity|]. split; [exact Eg|]. split; [exact El|]. split; [reflexivity|]. intros C k' i' l' [E|I] El'.
      * injection E as <- <-. assert (l' = l) as -> by congruence. split; [apply (n_irr _ _ _ C)|intros _; apply (n_high_irr _ _ _ C)].
      * destruct (B C k' i' l' I El') as [B1 B2]. assert (shorter l' l = false) as Q1. { destruct (shorter l' l) eqn:E; [|reflexivity]. rewrite (n_trans _ _ _ C _ _ _ E S1) in B1. discriminate. }
        split; [exact Q1|]. intros E. exfalso. assert (same l' bl = true) as E2. { apply (n_same _ _ _ C). split; [exact B1|]. destruct (shorter bl l') eqn:X; [|reflexivity]. apply (n_same _ _ _ C) in E as [_ E]. rewrite (n_trans _ _ _ C _ _ _ S1 X) in E. discriminate. }
        assert (same l l' = true) as E3. { apply (n_same _ _ _ C) in E as [Y1 Y2]. apply (n_same _ _ _ C). auto. } pose proof (n_same_trans _ _ _ C _ _ _ E3 E2) as E4. apply (n_same _ _ _ C) in E4 as [E4 _]. congruence.
    + exists k, i. split; [left; reflexivity|]. split; [exact Eg|]. split; [exact El|]. split; [reflexivity|]. intros C k' i' l' [E|I] El'.
      * injection E as <- <-. assert (l' = l) as -> by congruence. split; [apply (n_irr _ _ _ C)|intros _; apply (n_high_irr _ _ _ C)].
      * destruct (B C k' i' l' I El') as [B1 B2]. assert (same bl l = true) as S2'. { apply (n_same _ _ _ C) in S2 as [Y1 Y2]. apply (n_same _ _ _ C). auto. } split.
        -- destruct (shorter l' l) eqn:E; [|reflexivity]. exfalso. assert (same l' bl = true) as E2. { apply (n_same _ _ _ C). split; [exact B1|]. destruct (shorter bl l') eqn:X; [|reflexivity]. pose proof (n_trans _ _ _ C _ _ _ X E) as Y. apply (n_same _ _ _ C) in S2 as [_ S2]. congruence. }
           pose proof (n_same_trans _ _ _ C _ _ _ E2 S2') as E4. apply (n_same _ _ _ C) in E4 as [E4 _]. congruence.
        -- intros E. pose proof (n_same_trans _ _ _ C _ _ _ E S2) as E2. specialize (B2 E2). destruct (higher (qual k' i') (qual k i)) eqn:X; [|reflexivity]. rewrite (n_high_trans _ _ _ C _ _ _ X S3) in B2. discriminate.
    + exists k0, i0. split; [right; exact I0|]. split; [exact Eg0|]. split; [exact El0|]. split; [reflexivity|]. intros C k' i' l' [E|I] El'; [|apply (B C k' i' l' I El')]. injection E as <- <-. assert (l' = l) as -> by congruence. split; [exact S1|intros _; exact S3].
    + exists k0, i0. split; [right; exact I0|]. split; [exact Eg0|]. split; [exact El0|]. split; [reflexivity|]. intros C k' i' l' [E|I] El'; [|apply (B C k' i' l' I El')]. injection E as <- <-. assert (l' = l) as -> by congruence. split; [exact S1|]. congruence.
  - cbn in F. subst seen. exists k, i. split; [left; reflexivity|]. split; [exact Eg|]. split; [exact El|]. split; [reflexivity|]. intros C k' i' l' [E|[]] El'. injection E as <- <-. assert (l' = l) as -> by congruence. split; [apply (n_irr _ _ _ C)|intros _; apply (n_high_irr _ _ _ C)].
Qed.
End rails.

Section asked.
Context (T : topology) (HT : valid_topology T) (HS : simplicial T).
Context (class_dim : Z -> list Z) (HCL : forall d, 0 <= d <= t_dim T -> zlen (class_dim d) = t_nents T d).
Context (marks : list Z) (HM : zlen marks = t_nents T 0).
Context {L Q : Type} (shorter same : L -> L -> bool) (higher : Q -> Q -> bool) (globals : list Z) (lengths : list L) (qual : Z -> Z -> Q).
Context (HG : zlen globals = t_nents T 1) (HG0 : forall x, In x globals -> 0 <= x) (HL : zlen lengths = t_nents T 1) (checks : list (Z -> Z -> bool)).
Local Notation D := (t_dim T).
Local Notation ne := (t_nents T 1).
Local Notation ev := (t_verts T 1).
Section old.
Context (old : amesh) (HR : ready T old) (HA : forall a b, 0 <= a <= t_dim T -> 0 <= b <= t_dim T -> a <> b -> P_MeshAdj.val T a b = Ok (kept_adj old a b)).
(** the edges at a vertex *)
Lemma edges_at v codes : adj_codes (kept_adj old 0 1) = Some codes -> 0 <= v < t_nents T 0 -> exists lo hi, zget (adj_a2ab (kept_adj old 0 1)) v = Ok lo /\ zget (adj_a2ab (kept_adj old 0 1)) (v + 1) = Ok hi /\
  (forall p, In p (zfromto lo hi) -> exists k code, zget (adj_ab2b (kept_adj old 0 1)) p = Ok k /\ zget codes p = Ok code /\ 0 <= k < ne /\ (code_which_down code = 0 \/ code_which_down code = 1) /\ zget ev (k * 2 + code_which_down code) = Ok v) /\
  forall k i, i = 0 \/ i = 1 -> zget ev (k * 2 + i) = Ok v -> 0 <= k < ne -> exists p code, In p (zfromto lo hi) /\ zget (adj_ab2b (kept_adj old 0 1)) p = Ok k /\ zget codes p = Ok code /\ code_which_down code = i.
Proof.
  intros Ec Hv. pose proof (v_dim T HT) as HD. destruct (at_vert T HT HS old HA 1 v ltac:(lia) Hv) as (es & Et & _ & HI). unfold adj_targets in Et. apply targets_split in Et as (lo & hi & B1 & B2 & B3). cbn [a2ab ab2b] in *.
  destruct (verts_up T HT HS old HA 1 ltac:(lia)) as (W & codes' & Ec' & HV). assert (codes' = codes) as -> by congruence. pose proof W as (W1 & W2 & W3). specialize (W3 codes Ec). exists lo, hi. split; [exact B1|]. split; [exact B2|].
  assert (forall p, In p (zfromto lo hi) -> exists k code, zget (adj_ab2b (kept_adj old 0 1)) p = Ok k /\ zget codes p = Ok code /\ 0 <= k < ne /\ (code_which_down code = 0 \/ code_which_down code = 1) /\ zget ev (k * 2 + code_which_down code) = Ok v) as HP.
  { intros p Ip. destruct (mapM_in _ _ _ _ B3 Ip) as (k & Ek & _). pose proof (zget_bounds _ _ _ Ek) as Bk. destruct (zget_in_range codes p ltac:(lia)) as (c & Eco). exists k, c. split; [exact Ek|]. split; [exact Eco|]. split; [apply (in_up T HT HS old HA 1 k ltac:(lia) (zget_In _ _ _ Ek))|]. destruct (HV v p k c) as (C1 & C2 & _); [exists lo, hi; split; [exact B1|]; split; [exact B2|]; apply in_zfromto, Ip|exact Ek|exact Eco|]. split; [lia|exact C2]. }
  split; [exact HP|]. intros k i Hi Ek Hk. destruct (two_ends T HT HS old HR HA class_dim HCL marks HM k Hk) as (a & b & R & E0 & E1 & Nab & _). assert (In k es) as Ik. { apply HI. exists [a; b]. split; [exact R|]. destruct Hi as [->| ->]; [left; congruence|right; left; congruence]. }
  destruct (mapM_in_inv _ _ _ _ B3 Ik) as (p & Ep & Ip). destruct (HP p Ip) as (k' & code & X1 & X2 & X3 & X4 & X5). assert (k' = k) as -> by congruence. exists p, code. split; [exact Ip|]. split; [exact Ep|]. split; [exact X2|]. destruct X4 as [X4|X4]; rewrite X4 in *; destruct Hi as [->| ->]; congruence.
Qed.
Lemma rails_ok B cands : holds ne B cands -> sharp B cands -> exists bests, choose_rails shorter same higher (kept_adj old 0 1) (t_nents T 0) ne globals lengths qual cands (map (encA B) cands) =
    Ok (map (fun b => match b with None => 0 | Some _ => 1 end) bests, map (fun b => match b with None => None | Some (_, _, q) => Some q end) bests, map (fun b => match b with None => -1 | Some (g, _, _) => g end) bests) /\
  zlen bests = t_nents T 0 /\ forall v, 0 <= v < t_nents T 0 -> exists b seen, zget bests v = Ok b /\ fits_best shorter same higher globals lengths qual seen b /\
    forall k i, In (k, i) seen <-> 0 <= k < ne /\ (i = 0 \/ i = 1) /\ zget ev (k * 2 + i) = Ok v /\ B k i = true.
Proof.
  intros (N & R & C) S. pose proof (v_dim T HT) as HD. pose proof (v_nents T HT 1 ltac:(lia)) as N1. pose proof (v_nents T HT 0 ltac:(lia)) as N0. unfold choose_rails. destruct (invert_injective_map_spec cands ne N1 N R) as (inv & Ei & Li & I1 & I2). rewrite Ei. cbn [bind].
  destruct (verts_up T HT HS old HA 1 ltac:(lia)) as (_ & codes & Ec & _). rewrite Ec. cbn [bind].
  match goal with |- context [tabulate _ ?f] => set (F := f) end.
  assert (forall v, 0 <= v < t_nents T 0 -> exists b seen, F v = Ok b /\ fits_best shorter same higher globals lengths qual seen b /\ forall k i, In (k, i) seen <-> 0 <= k < ne /\ (i = 0 \/ i = 1) /\ zget ev (k * 2 + i) = Ok v /\ B k i = true) as HF.
  { intros v Hv. destruct (edges_at v codes Ec Hv) as (lo & hi & El & Eh & HP & HQ). unfold F. rewrite El. cbn [bind]. rewrite Eh. cbn [bind]. match goal with |- context [foldM ?f _ None] => set (G := f) end.
    assert (forall ps b seen, (forall p, In p ps -> In p (zfromto lo hi)) -> fits_best shorter same higher globals lengths qual seen b -> exists b' seen', foldM G ps b = Ok b' /\ fits_best shorter same higher globals lengths qual seen' b' /\
      forall k i, In (k, i) seen' <-> In (k, i) seen \/ B k i = true /\ exists p code, In p ps /\ zget (adj_ab2b (kept_adj old 0 1)) p = Ok k /\ zget codes p = Ok code /\ code_which_down code = i) as Step.
    { induction ps as [|p ps IH]; intros b seen Hp Fb.
      - exists b, seen. split; [reflexivity|]. split; [exact Fb|]. intros k i. split; [auto|]. intros [H|(_ & p & code & [] & _)]. exact H.
      - destruct (HP p (Hp p (or_introl eq_refl))) as (k & code & Ek & Eco & Hk & Hi & Ev).
        assert (exists b1 seen1, G b p = Ok b1 /\ fits_best shorter same higher globals lengths qual seen1 b1 /\ forall k' i', In (k', i') seen1 <-> In (k', i') seen \/ B k' i' = true /\ k' = k /\ i' = code_which_down code) as (b1 & seen1 & E1 & F1 & J1).
        { unfold G. rewrite Ek. cbn [bind]. destruct (in_dec Z.eq_dec k cands) as [I|I].
          - destruct (In_zget _ _ I) as (a & Ea). rewrite (I1 a k Ea). cbn [bind]. pose proof (zget_bounds _ _ _ Ea) as Ba. destruct (Z.eqb_spec a (-1)) as [|_]; [lia|]. rewrite Eco. cbn [bind]. rewrite (at_cand B _ _ _ Ea). cbn [bind]. pose proof (S k I) as NZ. destruct (Z.eqb_spec (encA B k) DONT_COLLAPSE) as [|_]; [contradiction|]. cbn [negb check bind].
            assert (code_collapses (encA B k) (code_which_down code) = B k (code_which_down code)) as ->. { unfold encA. destruct (has_bit (B k 0) (B k 1)) as [Q0 Q1]. destruct Hi as [Hi|Hi]; rewrite Hi; assumption. }
            destruct (B k (code_which_down code)) eqn:EB; cbn [negb].
            + destruct (zget_in_range globals k ltac:(lia)) as (g & Eg). destruct (zget_in_range lengths k ltac:(lia)) as (l & Elen). rewrite Eg. cbn [bind]. rewrite Elen. cbn [bind]. eexists. exists ((k, code_which_down code) :: seen). split; [reflexivity|]. split; [apply better_fits; assumption|]. intros k' i'. cbn [In]. split; [intros [X|X]; [injection X as <- <-; auto|auto]|intros [X|(_ & -> & ->)]; auto].
            + exists b, seen. split; [reflexivity|]. split; [exact Fb|]. intros k' i'. split; [auto|]. intros [X|(X & -> & ->)]; [exact X|congruence].
          - rewrite (I2 k Hk I). cbn [bind]. change (-1 =? -1) with true. cbv iota. exists b, seen. split; [reflexivity|]. split; [exact Fb|]. intros k' i'. split; [auto|]. intros [X|(X & -> & ->)]; [exact X|]. exfalso. apply I, C; [exact Hk|]. unfold encA. destruct Hi as [Hi|Hi]; rewrite Hi in X; rewrite X; [destruct (B k 1)|destruct (B k 0)]; cbn; lia. }
        cbn [foldM]. rewrite E1. cbn [bind]. destruct (IH b1 seen1 (fun q Iq => Hp q (or_intror Iq)) F1) as (b2 & seen2 & E2 & F2 & J2). exists b2, seen2. split; [exact E2|]. split; [exact F2|]. intros k' i'. rewrite J2, J1. split.
        + intros [[X|(X & -> & ->)]|(X & q & c' & Iq & Y)]; [auto|right; split; [exact X|]; exists p, code; split; [left; reflexivity|auto]|right; split; [exact X|]; exists q, c'; split; [right; exact Iq|exact Y]].
        + intros [X|(X & q & c' & [<-|Iq] & Y1 & Y2 & Y3)]; [auto| |right; split; [exact X|]; exists q, c'; auto]. left. right. split; [exact X|]. split; [congruence|]. rewrite <- Y3. congruence. }
    destruct (Step (zfromto lo hi) None [] (fun p I => I) eq_refl) as (b & seen & E & Fb & J). rewrite E. cbn [bind].
    assert (check (match b with None => true | Some (g, _, _) => negb (g =? -1) end) = Ok tt) as ->. { destruct b as [[[g l] q]|]; [|reflexivity]. destruct Fb as (k & i & _ & Eg & _). pose proof (HG0 g (zget_In _ _ _ Eg)). destruct (Z.eqb_spec g (-1)); [lia|reflexivity]. }
    cbn [bind]. exists b, seen. split; [reflexivity|]. split; [exact Fb|]. intros k i. rewrite J. split.
    - intros [[]|(X & p & code & Ip & Y1 & Y2 & Y3)]. destruct (HP p Ip) as (k' & c' & Z1 & Z2 & Z3 & Z4 & Z5). assert (k' = k) as -> by congruence. assert (c' = code) as -> by congruence. rewrite Y3 in *. auto.
    - intros (Hk & Hi & Ev & X). right. split; [exact X|]. destruct (HQ k i Hi Ev Hk) as (p & code & Y). exists p, code. exact Y. }
  destruct (mapM_total F (zrange (t_nents T 0))) as (bests & Eb). { intros v I. apply in_zrange in I. destruct (HF v I) as (b & _ & E & _). eauto. }
  unfold tabulate at 1. rewrite Eb. cbn [bind]. exists bests. split; [reflexivity|]. assert (zlen bests = t_nents T 0) as Lb. { pose proof (mapM_length _ _ _ Eb) as X. unfold zlen. rewrite X, zrange_length. lia. } split; [exact Lb|].
  intros v Hv. destruct (HF v Hv) as (b & seen & E & Fb & J). exists b, seen. split; [|auto]. destruct (mapM_get _ _ _ v v Eb (zget_zrange _ _ Hv)) as (b' & E1 & E2). congruence.
Qed.
End old.

Local Notation may := (may_go T class_dim marks checks).
(** what is chosen *)
Lemma chooses old : ready T old -> (forall a b, 0 <= a <= t_dim T -> 0 <= b <= t_dim T -> a <> b -> P_MeshAdj.val T a b = Ok (kept_adj old a b)) ->
  exists o, (let ev2v := adj_ab2b (kept_adj old 1 0) in
    codes <- edge_codes ev2v marks ne ;; p <- candidates codes ;; codes <- check_collapse_class ev2v (class_dim 0) (class_dim 1) (fst p) (snd p) ;;
    if forallb (fun code => code <=? DONT_COLLAPSE) codes then Ok (Some (old, None)) else
    codes <- map_onto codes (fst p) ne DONT_COLLAPSE 1 ;; p <- candidates codes ;; codes <- check_collapse_exposure old class_dim (fst p) (snd p) ;; p <- filter_candidates (fst p) codes ;; o <- other_checks checks (fst p) (snd p) ;;
    match o with
    | None => Ok (Some (old, None))
    | Some (cands2edges, cand_codes) => r <- choose_rails shorter same higher (kept_adj old 0 1) (t_nents T 0) ne globals lengths qual cands2edges cand_codes ;; Ok (Some (old, Some r))
    end) = Ok (Some (old, o)) /\
  match o with
  | None => forall v k i, ~ may v k i
  | Some (cands, quals, rails) => (checks <> [] -> exists v k i, may v k i) /\ chosen T class_dim marks checks globals shorter same higher lengths qual cands quals rails
  end.
Proof.
  intros HR HA. pose proof (v_dim T HT) as HD. pose proof (v_nents T HT 1 ltac:(lia)) as N1. cbv zeta. rewrite (old_verts T HT old HA 1) by lia.
  rewrite (codes_ok T HT HS old HR HA class_dim HCL marks HM). cbn [bind]. destruct (collected ne (A0 T marks) N1) as (c0 & E0 & H0 & S0). rewrite E0. cbn [bind fst snd]. rewrite (class_ok T HT HS old HR HA class_dim HCL marks HM c0 (proj1 (proj2 H0))). cbn [bind].
  set (B := fun k i => andb (A2 T old class_dim marks k i) (forallb (fun ok => ok k i) checks)).
  assert (forall v k i, may v k i -> 0 <= k < ne /\ (i = 0 \/ i = 1) /\ zget ev (k * 2 + i) = Ok v /\ B k i = true) as Down.
  { intros v k i H. pose proof H as (_ & (w & He & _) & _). assert (0 <= k < ne) as Hk. { destruct He as [[_ X]|[_ X]]; apply (ent_range T HT HS 1 k _ ltac:(lia) X). } assert (i = 0 \/ i = 1) as Hi by (destruct He as [[-> _]|[-> _]]; auto). split; [exact Hk|]. split; [exact Hi|]. split; [apply (end_iff T HT HS old HR HA class_dim HCL marks HM k i v Hk Hi); eauto|]. apply (A2_iff T HT HS old HR HA class_dim HCL marks HM k i v w checks He), H. }
  assert (forall v k i, 0 <= k < ne -> i = 0 \/ i = 1 -> zget ev (k * 2 + i) = Ok v -> B k i = true -> may v k i) as Up.
  { intros v k i Hk Hi Ev X. apply (end_iff T HT HS old HR HA class_dim HCL marks HM k i v Hk Hi) in Ev as (w & He). apply (A2_iff T HT HS old HR HA class_dim HCL marks HM k i v w checks He), X. }
  assert (forall k i, i = 0 \/ i = 1 -> B k i = true -> encA B k <> 0) as Nz. { intros k i Hi X. unfold encA. destruct Hi as [->| ->]; rewrite X; [destruct (B k 1)|destruct (B k 0)]; cbn; lia. }
  destruct (forallb (fun code => code <=? DONT_COLLAPSE) (map (encA (A1 T class_dim marks)) c0)) eqn:All.
  - exists None. split; [reflexivity|]. intros v k i H. destruct (Down v k i H) as (Hk & Hi & _ & X). pose proof (Nz k i Hi X) as X'. apply (narrower (A2 T old class_dim marks) (fun k i => forallb (fun ok => ok k i) checks)) in X'. apply (A2_narrows T HT HS old HR HA class_dim HCL marks HM) in X'. pose proof (A1_narrows T HT HS old HR HA class_dim HCL marks HM _ X') as X0. destruct H0 as (_ & _ & C0). pose proof (C0 k Hk X0) as I. rewrite forallb_forall in All. specialize (All _ (in_map (encA (A1 T class_dim marks)) _ _ I)). apply Z.leb_le in All. unfold encA in *. pose proof (enc_range (A1 T class_dim marks k 0) (A1 T class_dim marks k 1)). unfold DONT_COLLAPSE in All. lia.
  - rewrite (put_back ne (A0 T marks) (A1 T class_dim marks) c0 N1 H0 (A1_narrows T HT HS old HR HA class_dim HCL marks HM)). cbn [bind]. destruct (collected ne (A1 T class_dim marks) N1) as (c1 & E1 & H1 & S1). rewrite E1. cbn [bind fst snd]. rewrite (exposure_ok T HT HS old HR HA class_dim HCL marks HM c1 (proj1 (proj2 H1)) (A1 T class_dim marks)). cbn [bind].
    destruct (filtered ne (A1 T class_dim marks) (A2 T old class_dim marks) c1 H1 (A2_narrows T HT HS old HR HA class_dim HCL marks HM)) as (c2 & E2 & H2 & S2). unfold A2 in E2 at 1. rewrite E2. cbn [bind fst snd]. destruct (checked ne checks (A2 T old class_dim marks) c2 H2 S2) as (o & E3 & Ho). rewrite E3. cbn [bind]. cbv zeta in Ho. fold B in Ho. destruct o as [[c3 cs3]|].
    + destruct Ho as (H3 & S3 & -> & Hne). destruct (rails_ok old HR HA B c3 H3 S3) as (bests & E4 & Lb & HB). rewrite E4. cbn [bind]. eexists. split; [reflexivity|]. cbv iota. split.
      * intros Hc. specialize (Hne Hc). destruct c3 as [|k c3]; [contradiction|]. pose proof (S3 k (or_introl eq_refl)) as X. pose proof (proj1 (proj2 H3) k (or_introl eq_refl)) as Hk. destruct (two_ends T HT HS old HR HA class_dim HCL marks HM k Hk) as (a & b & _ & Ea & Eb & _). unfold encA in X. destruct (B k 0) eqn:B0; [exists a, k, 0; apply Up; auto|]. destruct (B k 1) eqn:B1; [exists b, k, 1; apply Up; auto|]. exfalso. apply X. reflexivity.
      * split; [rewrite zlen_map; exact Lb|]. split; [rewrite zlen_map; exact Lb|]. split; [rewrite zlen_map; exact Lb|]. intros v Hv. destruct (HB v Hv) as (b & seen & Ev & Fb & J). rewrite !zget_map, Ev. cbn [bind]. destruct b as [[[g l] q]|].
        -- left. destruct Fb as (k & i & I & Eg & El & -> & Best). exists k, i, g. apply J in I as (Hk & Hi & Ek & X). split; [|auto]. split; [apply Up; assumption|]. intros Cm k' i' l1 l' M E1' E2'. assert (l1 = l) as -> by congruence. apply (Best Cm k' i' l'); [|exact E2']. apply J. apply Down, M.
        -- right. cbn in Fb. split; [|auto]. intros k i M. apply Down in M. apply J in M. rewrite Fb in M. destruct M.
    + exists None. split; [reflexivity|]. intros v k i M. apply Down in M as (Hk & Hi & _ & X). apply (Nz k i Hi X), Ho, Hk.
Qed.

Context (m : amesh) (HMm : mesh_of T m).
Local Notation run := (choose_collapses shorter same higher).
Lemma choose_reduces c fin (Hfin : fin = true -> finishes T c) : good fin (run c m class_dim globals lengths qual checks marks) /\
  forall old o, run c m class_dim globals lengths qual checks marks = Ok (Some (old, o)) -> mesh_of T old /\
  match o with
  | None => forall v k i, ~ may v k i
  | Some (cands, quals, rails) => (checks <> [] -> exists v k i, may v k i) /\ chosen T class_dim marks checks globals shorter same higher lengths qual cands quals rails
  end.
Proof.
  pose proof (v_dim T HT) as HD. pose proof (mesh_ready T m HT HMm) as RM. unfold choose_collapses. rewrite (old_dim T m RM). destruct (asked_first T HT fin c Hfin m RM) as [(x & Ex & Hx) Q0]. rewrite Ex. rewrite (old_nents T m RM 1), (old_nents T m RM 0) by lia. unfold bindo. cbn [bind]. destruct x as [old|].
  - destruct (Q0 old Ex) as [HR HA]. destruct (chooses old HR HA) as (o & Eo & Ho). cbv zeta in Eo. split.
    + eexists. split; [exact Eo|]. intros _. eauto.
    + intros old' o' E. rewrite Eo in E. injection E as <- <-. split; [eapply mesh_each; eassumption|exact Ho].
  - split; [exists None; split; [reflexivity|]; intros F; destruct (Hx F) as (y & Y); discriminate|]. intros old o E. discriminate.
Qed.
Lemma choose_defined c : exists o, run c m class_dim globals lengths qual checks marks = Ok o.
Proof. destruct (choose_reduces c false ltac:(discriminate)) as [(o & E & _) _]. eauto. Qed.
Lemma choose_right c old o : run c m class_dim globals lengths qual checks marks = Ok (Some (old, o)) -> mesh_of T old /\
  match o with
  | None => forall v k i, ~ may v k i
  | Some (cands, quals, rails) => (checks <> [] -> exists v k i, may v k i) /\ chosen T class_dim marks checks globals shorter same higher lengths qual cands quals rails
  end.
Proof. apply (choose_reduces c false). discriminate. Qed.
Lemma choose_finishes mem : exists first second x, run (mk_chance mem first second (fun _ _ => false)) m class_dim globals lengths qual checks marks = Ok (Some x).
Proof. destruct (finishing_chance T mem HT) as (first & second & HF). exists first, second. destruct (choose_reduces _ true (fun _ => HF)) as [(o & E & H) _]. destruct (H eq_refl) as (x & ->). eauto. Qed.
End asked.

(** any part of the choice *)
Section choice.
Context (T : topology) (HT : valid_topology T) (HS : simplicial T) (class_dim : Z -> list Z) (marks : list Z).
Context {L Q : Type} (shorter same : L -> L -> bool) (higher : Q -> Q -> bool) (globals : list Z) (lengths : list L) (qual : Z -> Z -> Q) (checks : list (Z -> Z -> bool)).
Local Notation D := (t_dim T).
Lemma choice_goes keys cands quals rails : chosen T class_dim marks checks globals shorter same higher lengths qual cands quals rails -> NoDup globals -> (forall v, In v keys -> zget cands v = Ok 1) ->
  forall v, In v keys -> exists w k i, S_Collapse.goes T globals keys rails v w /\ end_of T k i v w /\ keeps_class T class_dim k v w /\ forall w', S_Collapse.goes T globals keys rails v w' -> w' = w.
Proof.
  intros (L1 & L2 & L3 & H) NG HK v Iv. pose proof (v_dim T HT) as HD. pose proof (HK v Iv) as E1. pose proof (zget_bounds _ _ _ E1) as Bv. destruct (H v ltac:(lia)) as [(k & i & g & G & _ & _ & Eg & Er)|(_ & E0 & _)]; [|congruence]. destruct G as [(_ & (w & He & Hc) & _) _]. exists w, k, i.
  split; [|split; [exact He|split; [exact Hc|]]].
  - split; [exact Iv|]. destruct He as [[_ R]|[_ R]]; [exists g, k, [v; w]|exists g, k, [w; v]]; (split; [exact Er|]; split; [exact Eg|]; split; [exact R|]); [reflexivity|apply perm_swap].
  - intros w' (_ & g' & k' & row & Er' & Eg' & R' & P'). assert (g' = g) as -> by congruence. pose proof (NoDup_zget _ _ _ _ NG Eg Eg') as <-. assert (exists a b, ent_verts T 1 k [a; b] /\ (v = a /\ w = b \/ v = b /\ w = a)) as (a & b & Rk & Evw) by (destruct He as [[_ R]|[_ R]]; eauto 6). pose proof (ent_unique T 1 _ _ _ ltac:(lia) Rk R') as <-. destruct (edge_row T HT HS k _ Rk) as (a' & b' & Eab & Nab). injection Eab as <- <-.
    apply Permutation_sym, Permutation_length_2_inv in P' as [E|E]; injection E as E1' E2'; destruct Evw as [[-> ->]|[-> ->]]; congruence.
Qed.
Lemma same_class_minus d e c : same_class class_dim (d + 1 - 1) e (d + 1) c -> same_class class_dim d e (d + 1) c.
Proof. replace (d + 1 - 1) with d by lia. auto. Qed.
Lemma choice_apart keys cands quals rails : chosen T class_dim marks checks globals shorter same higher lengths qual cands quals rails -> NoDup globals -> (forall v, In v keys -> zget cands v = Ok 1) ->
  forall d e row, 0 <= d < D -> ent_verts T d e row -> falls T globals keys rails d row -> ~ shrinks T globals keys rails row ->
  exists c crow, ent_verts T (d + 1) c crow /\ incl row crow /\ shrinks T globals keys rails crow /\ same_class class_dim d e (d + 1) c.
Proof.
  intros HC NG HK d e row Hd Re (v & w & Gv & Iv & Hf) NS. destruct Hf as [Iw|(_ & c & crow & Rc & Inc & Iw)]; [exfalso; apply NS; exists v, w; auto|]. destruct (choice_goes keys cands quals rails HC NG HK v (proj1 Gv)) as (w0 & k & i & _ & He & (K1 & K2) & Un). pose proof (Un w Gv) as <-.
  exists c, crow. split; [exact Rc|]. split; [exact Inc|]. split; [exists v, w; auto|]. destruct (Z.eq_dec d 0) as [->|Nd].
  - unfold ent_verts in Re. cbn [Z.eqb] in Re. destruct Re as [_ ->]. destruct Iv as [<-|[]]. assert (k = c) as <-; [|exact K1]. change (0 + 1) with 1 in *. assert (exists row, ent_verts T 1 k row /\ Permutation row [e; w]) as (r1 & R1 & P1). { destruct He as [[_ R]|[_ R]]; [exists [e; w]|exists [w; e]]; (split; [exact R|]); [reflexivity|apply perm_swap]. }
    apply (s_once T HS 1 k c r1 crow ltac:(lia) R1 Rc). apply (Permutation_trans P1). destruct (ent_facts T HT HS 1 c crow ltac:(lia) Rc) as (Nc & Lc & _). destruct (ent_facts T HT HS 1 k r1 ltac:(lia) R1) as (Nr & _). apply incl_same; [apply (Permutation_NoDup P1 Nr)|exact Nc| |rewrite Lc; reflexivity]. intros x [<-|[<-|[]]]; [apply Inc; left; reflexivity|exact Iw].
  - apply (same_class_minus d e c). eapply (K2 (d + 1) c crow e row); [lia|exact Rc|apply Inc, Iv|exact Iw|replace (d + 1 - 1) with d by lia; exact Re|exact Inc|]. intros I. apply NS. exists v, w. auto.
Qed.
End choice.
