(** Proofs for C88. *)
From Coq Require Import Lia.
From Verif Require Import Prelude M_Array M_Par M_Scan M_Sort M_Map M_Adj S_Adj M_Graph S_Graph M_Parents S_Parents P_Array P_Map P_Map2 P_Graph P_Parents M_AmrTransfer P_AmrTransfer P_AmrTransfer2 P_AmrRefine2 P_Transit P_Automaton2 M_UnmapFamily S_UnmapFamily.
Local Open Scope Z_scope.

Lemma code_dim_nonneg c : 0 <= code_parent_dim c.
Proof. unfold code_parent_dim. apply Z.land_nonneg. lia. Qed.

Section whole.
Variable m : fmesh.
Variable leaves : Z -> option (list Z).
Variable kept : Z -> list Z.
Hypothesis K : keeps m leaves kept.
Let dim := f_dim m.

Definition inverse_of (inv : Z -> list Z) : Prop := forall d, 0 <= d <= dim -> zlen (inv d) = f_nents m d /\
  (forall a b, zget (kept d) a = Ok b -> zget (inv d) b = Ok a) /\ (forall b, 0 <= b < f_nents m d -> ~ In b (kept d) -> zget (inv d) b = Ok (-1)).

Lemma remap_w inv d : inverse_of inv -> 0 <= d <= dim -> exists p, remap_parents (kept d) inv (parents_in m d) = Ok p /\ parent_right m kept d p.
Proof using K.
  intros HI Hd. destruct (k_kept _ _ _ K d Hd) as (ND & KR). destruct (k_lengths _ _ _ K d Hd) as (L1 & L2).
  assert (ONE : forall e, In e (kept d) -> exists q' c', remap_parent inv (parents_in m d) e = Ok (q', c') /\
    ((exists pd q c, child_of m d e pd q c /\ zget (kept pd) q' = Ok q /\ c' = c) \/ ((forall pd q c, child_of m d e pd q c -> ~ In q (kept pd)) /\ q' = -1 /\ c' = 0))).
  { intros e He. specialize (KR e He). destruct (zget_in_range (fst (parents_in m d)) e) as (q & Eq); [lia|]. destruct (zget_in_range (snd (parents_in m d)) e) as (c & Ec); [lia|].
    unfold remap_parent. rewrite Eq, Ec. cbn [bind]. destruct (Z.ltb_spec (-1) q) as [Hq|Hq].
    - destruct (k_parents _ _ _ K d e q c Hd Eq Ec ltac:(lia)) as (P1 & P2). pose proof (code_dim_nonneg c) as P0. destruct (HI (code_parent_dim c)) as (I1 & I2 & I3); [unfold dim; lia|].
      destruct (in_dec Z.eq_dec q (kept (code_parent_dim c))) as [Y|N].
      + apply In_zget in Y as (a & Ha). rewrite (I2 a q Ha). cbn [bind]. pose proof (zget_bounds _ _ _ Ha). destruct (Z.ltb_spec (-1) a); [|lia]. eexists _, _. split; [reflexivity|]. left. exists (code_parent_dim c), q, c. split; [split; [exact Eq|split; [exact Ec|split; [lia|reflexivity]]]|]. auto.
      + rewrite (I3 q ltac:(lia) N). cbn [bind]. eexists _, _. split; [reflexivity|]. right. split; [|auto]. intros pd q2 c2 (A & B & _ & D). rewrite Eq in A. rewrite Ec in B. injection A as <-. injection B as <-. subst pd. exact N.
    - eexists _, _. split; [reflexivity|]. right. split; [|auto]. intros pd q2 c2 (A & _ & C & _). rewrite Eq in A. injection A as <-. lia. }
  unfold remap_parents. destruct (tab_total (zlen (kept d)) (fun new_ent => old_ent <- zget (kept d) new_ent ;; remap_parent inv (parents_in m d) old_ent)) as (ps & -> & LP & GP).
  { apply zlen_nonneg. } { intros i Hi. destruct (zget_in_range (kept d) i Hi) as (e & He). rewrite He. cbn [bind]. destruct (ONE e (zget_In _ _ _ He)) as (q' & c' & E & _). eauto. }
  cbn [bind]. eexists. split; [reflexivity|]. split; [cbn [fst]; rewrite zlen_map; exact LP|]. split; [cbn [snd]; rewrite zlen_map; exact LP|]. intros e' e He. pose proof (zget_bounds _ _ _ He) as B. specialize (GP e' B). rewrite He in GP. cbn [bind] in GP.
  destruct (ONE e (zget_In _ _ _ He)) as (q' & c' & E & C). rewrite E in GP. cbn [fst snd]. rewrite !zget_map, GP. cbn [fst snd]. destruct C as [(pd & q & c & C1 & C2 & ->)|(C1 & -> & ->)].
  - left. exists pd, q, q', c. auto.
  - right. auto.
Qed.

Lemma right_proper d d' p : 1 <= d' <= dim -> parent_right m kept d p -> proper_parents p d' (zlen (kept d')).
Proof using.
  intros Hd (L1 & L2 & R). split; [lia|]. intros x q c E1 E2 E3. pose proof (zget_bounds _ _ _ E1) as B. destruct (zget_in_range (kept d) x) as (e & He); [lia|]. destruct (R x e He) as [(pd & q0 & q' & c0 & (_ & _ & _ & C) & A & A1 & A2)|(_ & A1 & A2)].
  - rewrite A1 in E1. injection E1 as <-. rewrite A2 in E2. injection E2 as <-. subst d'. rewrite C in *. eapply zget_bounds. exact A.
  - rewrite A2 in E2. injection E2 as <-. unfold code_parent_dim in E3. cbn in E3. lia.
Qed.

Lemma children_new d p e' e : 1 <= d <= dim -> parent_right m kept d p -> zget (kept d) e' = Ok e -> (children_of p d e' <> [] <-> exists x c, In x (kept d) /\ child_of m d x d e c).
Proof using K.
  intros Hd (L1 & L2 & R) He. destruct (k_kept _ _ _ K d ltac:(unfold dim in *; lia)) as (ND & _). split.
  - intros NE. destruct (children_of p d e') as [|x' r] eqn:E; [contradiction|]. assert (I : In x' (children_of p d e')) by (rewrite E; left; reflexivity). apply children_of_in in I as (I1 & code & I2 & I3); [|lia].
    pose proof (zget_bounds _ _ _ I1) as B. destruct (zget_in_range (kept d) x') as (x & Hx); [lia|]. destruct (R x' x Hx) as [(pd & q & q' & c & C & A & A1 & A2)|(_ & A1 & A2)].
    + assert (q' = e') by congruence. assert (c = code) by congruence. subst q' c. pose proof C as (C1 & C2 & C3 & C4). assert (PD : pd = d) by congruence. rewrite PD in A, C. rewrite He in A. injection A as <-. exists x, code. split; [eapply zget_In; exact Hx|exact C].
    + rewrite A1 in I1. injection I1 as <-. apply zget_bounds in He. lia.
  - intros (x & c & Ix & C) E. apply In_zget in Ix as (x' & Hx). destruct (R x' x Hx) as [(pd & q & q' & c0 & (D1 & D2 & D3 & D4) & A & A1 & A2)|(N & _)].
    + destruct C as (C1 & C2 & C3 & C4). assert (q = e) by congruence. assert (c0 = c) by congruence. subst q c0. rewrite D4 in C4. subst pd.
      assert (q' = e') by (eapply NoDup_zget; [exact ND|exact A|exact He]). subst q'. assert (I : In x' (children_of p d e')) by (apply children_of_in; [lia|]; split; [exact A1|exists c; auto]). rewrite E in I. destruct I.
    + exact (N d e c C (zget_In _ _ _ He)).
Qed.

Lemma parents_loop inv : inverse_of inv -> forall l old new, f_dim old = dim -> (forall d, f_nents old d = f_nents m d) -> (forall d, parents_in old d = parents_in m d) ->
  f_dim new = dim -> (forall d, f_nents new d = zlen (kept d)) -> (forall d, In d l -> 0 <= d <= dim) ->
  exists old' new', foldM (fun (s : fmesh * fmesh) ent_dim =>
    r <- ask_parents (fst s) ent_dim ;;
    p <- remap_parents (kept ent_dim) inv (snd r) ;;
    new_mesh <- set_parents (snd s) ent_dim p ;;
    Ok (fst r, new_mesh)) l (old, new) = Ok (old', new') /\ f_dim new' = dim /\ (forall d, f_nents new' d = zlen (kept d)) /\ (forall i j, f_children new' i j = f_children new i j) /\
  (forall d, In d l -> exists p, f_parents new' d = Some p /\ parent_right m kept d p) /\ (forall d, ~ In d l -> f_parents new' d = f_parents new d).
Proof using K.
  intros HI. induction l as [|d l IH]; intros old new D1 N1 P1 D2 N2 HL.
  - exists old, new. split; [reflexivity|]. split; [exact D2|]. split; [exact N2|]. split; [reflexivity|]. split; [intros d []|reflexivity].
  - assert (Hd : 0 <= d <= dim) by (apply HL; left; reflexivity). pose proof (k_nents _ _ _ K d Hd) as Nn.
    assert (A : exists old1, ask_parents old d = Ok (old1, parents_in m d) /\ f_dim old1 = dim /\ (forall d, f_nents old1 d = f_nents m d) /\ (forall d, parents_in old1 d = parents_in m d)).
    { unfold ask_parents, set_parents, f_check_dim2, check. rewrite D1, N1. destruct (Z.leb_spec 0 d), (Z.leb_spec d dim), (Z.leb_spec 0 (f_nents m d)); try lia. cbn [bind]. specialize (P1 d) as P1d. unfold parents_in at 1 in P1d.
      destruct (f_parents old d) as [p|] eqn:F; [subst p; exists old; auto|]. rewrite N1 in P1d. rewrite !filled_ok by exact Nn. cbn [bind]. eexists. split; [rewrite <- P1d; reflexivity|]. cbn [f_dim f_nents]. split; [reflexivity|]. split; [exact N1|].
      intros d0. unfold parents_in at 1. cbn [f_parents f_nents]. destruct (Z.eqb_spec d0 d) as [->|Ne]; [exact P1d|]. specialize (P1 d0). unfold parents_in at 1 in P1. exact P1. }
    destruct A as (old1 & E1 & D1' & N1' & P1'). destruct (remap_w inv d HI Hd) as (p & Ep & Rp).
    cbn [foldM fst snd]. rewrite E1. cbn [bind fst snd]. rewrite Ep. cbn [bind]. unfold set_parents at 1, f_check_dim2, check. rewrite D2, N2. destruct (Z.leb_spec 0 d), (Z.leb_spec d dim); try lia. pose proof (zlen_nonneg (kept d)). destruct (Z.leb_spec 0 (zlen (kept d))); [|lia]. cbn [bind].
    match goal with |- context [foldM _ l (old1, ?n1)] => set (new1 := n1) end.
    destruct (IH old1 new1 D1' N1' P1' eq_refl N2) as (old' & new' & E & F1 & F2 & F3 & F4 & F5); [intros d0 I0; apply HL; right; exact I0|].
    exists old', new'. split; [exact E|]. split; [exact F1|]. split; [exact F2|]. split; [exact F3|]. split.
    + intros d0 [<-|I]; [|apply F4, I]. destruct (in_dec Z.eq_dec d l) as [I|I]; [apply F4, I|]. exists p. split; [|exact Rp]. rewrite F5 by exact I. unfold new1. cbn [f_parents]. rewrite Z.eqb_refl. reflexivity.
    + intros d0 N. rewrite F5 by (intros I; apply N; right; exact I). unfold new1. cbn [f_parents]. destruct (Z.eqb_spec d0 d) as [->|]; [exfalso; apply N; left; reflexivity|reflexivity].
Qed.

Definition tag_right (d : Z) (t : option (list Z)) : Prop := match leaves d with None => t = None | Some old => exists l, t = Some l /\ zlen l = zlen (kept d) /\ forall e' e, zget (kept d) e' = Ok e -> zget l e' = zget old e end.

Lemma leaf_w d p ch t b0 : 1 <= d <= dim -> parent_right m kept d p -> lists_children p d (zlen (kept d)) ch -> tag_right d t -> ask_leaves (zlen (kept d)) t = Ok b0 ->
  exists l, tabulate (zlen (kept d)) (new_leaf b0 ch) = Ok l /\ leaf_right m leaves kept d l.
Proof using K.
  intros Hd R (W & LA & G) T A. assert (Hd' : 0 <= d <= dim) by lia. destruct (k_kept _ _ _ K d Hd') as (ND & KR).
  assert (B0 : zlen b0 = zlen (kept d) /\ forall e' e, zget (kept d) e' = Ok e -> exists b, zget b0 e' = Ok b /\ match leaves d with Some old => zget old e = Ok b | None => b = 1 end).
  { unfold tag_right in T. destruct (leaves d) as [old|] eqn:EL.
    - destruct T as (l & -> & L & GL). cbn in A. injection A as <-. split; [exact L|]. intros e' e He. destruct (zget_in_range old e) as (b & Eb); [rewrite (k_leaves _ _ _ K d old Hd' EL); apply KR; eapply zget_In; exact He|]. exists b. rewrite (GL e' e He). auto.
    - subst t. cbn in A. rewrite filled_ok in A by apply zlen_nonneg. injection A as <-. split; [rewrite zlen_repeat; pose proof (zlen_nonneg (kept d)); lia|]. intros e' e He. exists 1. split; [|reflexivity]. apply zget_repeat. pose proof (zget_bounds _ _ _ He). lia. }
  destruct B0 as (LB & GB).
  assert (ONE : forall e' e, zget (kept d) e' = Ok e -> exists b, zget b0 e' = Ok b /\ (match leaves d with Some old => zget old e = Ok b | None => b = 1 end) /\ exists n, (n = 0 <-> children_of p d e' = []) /\ new_leaf b0 ch e' = Ok (if (n =? 0) && (b =? 0) then 1 else b)).
  { intros e' e He. destruct (GB e' e He) as (b & Eb & Hb). exists b. split; [exact Eb|]. split; [exact Hb|]. pose proof (zget_bounds _ _ _ He) as B. destruct (G e' B) as (G1 & _). unfold adj_targets, targets in G1. cbn [a2ab ab2b] in G1. apply bind_ok in G1 as (lo & E1 & G1). apply bind_ok in G1 as (hi & E2 & G1).
    exists (hi - lo). split.
    - destruct W as ((_ & W) & _). specialize (W e' lo hi E1 E2). apply mapM_length in G1. assert (ZL : zlen (children_of p d e') = hi - lo) by (rewrite <- (zlen_zfromto lo hi W); unfold zlen; rewrite G1; reflexivity). split.
      + intros Z0. destruct (children_of p d e'); [reflexivity|]. unfold zlen in ZL. cbn [length] in ZL. lia.
      + intros Z0. rewrite Z0 in ZL. unfold zlen in ZL. cbn in ZL. lia.
    - unfold new_leaf. rewrite Eb. cbn [bind]. rewrite E2. cbn [bind]. rewrite E1. reflexivity. }
  destruct (tab_total (zlen (kept d)) (new_leaf b0 ch)) as (l & E & L & GL); [apply zlen_nonneg| |].
  { intros i Hi. destruct (zget_in_range (kept d) i Hi) as (e & He). destruct (ONE i e He) as (b & _ & _ & n & _ & X). eauto. }
  exists l. split; [exact E|]. split; [exact L|]. intros e' e He. destruct (ONE e' e He) as (b & Eb & Hb & n & Hn & X). exists b. split; [exact Hb|]. specialize (GL e' (zget_bounds _ _ _ He)). rewrite X in GL. pose proof (children_new d p e' e Hd R He) as CN. rewrite GL. split; [|split].
  - intros N. destruct (Z.eqb_spec b 0); [contradiction|]. rewrite Bool.andb_false_r. reflexivity.
  - intros -> H. apply CN in H. destruct (Z.eqb_spec n 0) as [Z0|]; [|reflexivity]. apply Hn in Z0. contradiction.
  - intros -> H. destruct (Z.eqb_spec n 0) as [Z0|N0]; [reflexivity|]. exfalso. assert (Q : children_of p d e' <> []) by (intros Q; apply N0, Hn, Q). apply CN in Q as (x & c & I & C). exact (H x c I C).
Qed.

Lemma leaves_loop c tags : forall dims m1, NoDup dims -> (forall d, In d dims -> 1 <= d <= dim /\ tag_right d (tags d) /\ f_children m1 d d = None) -> f_dim m1 = dim -> (forall d, f_nents m1 d = zlen (kept d)) ->
  (forall d, In d dims -> exists p, f_parents m1 d = Some p /\ parent_right m kept d p) ->
  exists o, unmap_leaves c m1 tags dims = Ok o /\ forall m2 ls, o = Some (m2, ls) -> (forall d, f_parents m2 d = f_parents m1 d) /\ f_dim m2 = dim /\ (forall d, f_nents m2 d = zlen (kept d)) /\ Forall2 (leaf_right m leaves kept) dims ls.
Proof using K.
  induction dims as [|d dims IH]; intros m1 ND HD FD FN HP.
  - exists (Some (m1, [])). split; [reflexivity|]. intros m2 ls E. injection E as <- <-. auto.
  - inversion ND as [|? ? NI ND2]; subst. destruct (HD d ltac:(left; reflexivity)) as (Hd & T & C0). destruct (HP d ltac:(left; reflexivity)) as (p & Fp & Rp).
    cbn [unmap_leaves]. destruct (c d) as ((m0 & s1) & s2). rewrite FN.
    assert (A : exists b0, ask_leaves (zlen (kept d)) (tags d) = Ok b0) by (unfold ask_leaves; destruct (tags d); [eauto|rewrite filled_ok by apply zlen_nonneg; eauto]). destruct A as (b0 & A). rewrite A. cbn [bind].
    unfold ask_children, ask_parents, f_check_dim2, check. rewrite FD, FN. pose proof (zlen_nonneg (kept d)) as Nn. destruct (Z.leb_spec 0 d), (Z.leb_spec d dim), (Z.leb_spec 0 (zlen (kept d))); try lia. cbn [bind]. rewrite Fp. cbn [bind fst snd]. rewrite C0, FN.
    destruct (invert_parents_spec p d (zlen (kept d)) m0 s1 s2 Nn (right_proper d d p Hd Rp)) as (o & -> & Ho). cbn [bind]. destruct o as [ch|]; [|exists None; split; [reflexivity|discriminate]]. specialize (Ho ch eq_refl). cbn [bind f_nents]. rewrite FN.
    destruct (leaf_w d p ch (tags d) b0 Hd Rp Ho T A) as (l & -> & HL). cbn [bind].
    match goal with |- context [unmap_leaves c ?x tags dims] => set (m2 := x) end.
    destruct (IH m2 ND2) as (o & -> & HO).
    + intros d0 I. destruct (HD d0 ltac:(right; exact I)) as (H1' & H2' & H3'). split; [exact H1'|]. split; [exact H2'|]. unfold m2. cbn [f_children]. destruct (Z.eqb_spec d0 d) as [->|]; [contradiction|]. cbn [andb]. exact H3'.
    + exact FD.
    + exact FN.
    + intros d0 I. exact (HP d0 (or_intror I)).
    + cbn [bind]. eexists. split; [reflexivity|]. intros m3 ls E. destruct o as [(m4 & rest)|]; [|discriminate]. injection E as <- <-. destruct (HO m4 rest eq_refl) as (Q1 & Q2 & Q3 & Q4). split; [exact Q1|]. split; [exact Q2|]. split; [exact Q3|]. constructor; [exact HL|exact Q4].
Qed.

Lemma unmap_family_w c : with_parents m -> exists o, unmap_family c m leaves kept = Ok o /\ forall new tags, o = Some (new, tags) ->
  f_dim new = f_dim m /\ (forall d, f_nents new d = zlen (kept d)) /\ f_parents new 0 = None /\
  forall d, 1 <= d <= f_dim m -> (exists p, f_parents new d = Some p /\ parent_right m kept d p) /\ (exists l, zget tags d = Ok (Some l) /\ leaf_right m leaves kept d l).
Proof using K.
  intros HP0. assert (HP : has_any_parents m = true).
  { destruct HP0 as (d & Hd & N). unfold has_any_parents. apply existsb_exists. exists d. split; [apply in_zrange; lia|]. destruct (f_parents m d); [reflexivity|contradiction]. }
  pose proof (k_dim _ _ _ K) as HD. unfold unmap_family. fold dim in HD |- *.
  destruct (tab_total (dim + 1) (fun d => invert_injective_map (kept d) (f_nents m d))) as (inv & E1 & L1 & G1); [lia| |].
  { intros d Hd. destruct (k_kept _ _ _ K d ltac:(unfold dim in *; lia)) as (A & B). destruct (invert_injective_map_spec (kept d) (f_nents m d)) as (r & E & _); [apply (k_nents _ _ _ K); unfold dim in *; lia|exact A|exact B|]. eauto. }
  unfold tabulate in E1. rewrite E1. cbn [bind].
  destruct (tab_total (dim + 1) (fun d => match leaves d with Some l => l' <- unmap (kept d) l 1 ;; Ok (Some l') | None => Ok None end)) as (tags & E2 & L2 & G2); [lia| |].
  { intros d Hd. destruct (leaves d) as [l|] eqn:EL; [|eauto]. destruct (P_AmrTransfer.unmap1 (kept d) l) as (r & -> & _); [|cbn [bind]; eauto]. rewrite (k_leaves _ _ _ K d l ltac:(unfold dim in *; lia) EL). apply (k_kept _ _ _ K). unfold dim in *; lia. }
  unfold tabulate in E2. rewrite E2. cbn [bind]. rewrite HP.
  set (inv' := fun d => match zget inv d with Ok l => l | _ => [] end). set (tags' := fun d => match zget tags d with Ok t => t | _ => None end).
  assert (HI : inverse_of inv').
  { intros d Hd. destruct (k_kept _ _ _ K d Hd) as (A & B). destruct (invert_injective_map_spec (kept d) (f_nents m d)) as (r & E & X); [apply (k_nents _ _ _ K), Hd|exact A|exact B|]. specialize (G1 d ltac:(lia)). rewrite E in G1. unfold inv'. rewrite G1. exact X. }
  assert (HT : forall d, 0 <= d <= dim -> tag_right d (tags' d)).
  { intros d Hd. unfold tag_right, tags'. specialize (G2 d ltac:(lia)). destruct (leaves d) as [l|] eqn:EL; [|rewrite G2; reflexivity]. destruct (P_AmrTransfer.unmap1 (kept d) l) as (r & E & L & G); [rewrite (k_leaves _ _ _ K d l Hd EL); apply (k_kept _ _ _ K d Hd)|]. rewrite E in G2. cbn [bind] in G2. rewrite G2. exists r. auto. }
  unfold unmap_parents. cbn [f_dim].
  match goal with |- context [foldM _ _ (m, ?n0)] => set (new0 := n0) end.
  assert (HZ : forall d, In d (zfromto 1 (dim + 1)) <-> 1 <= d <= dim) by (intros d; rewrite in_zfromto; lia).
  destruct (parents_loop inv' HI (zfromto 1 (dim + 1)) m new0 eq_refl ltac:(reflexivity) ltac:(reflexivity) eq_refl ltac:(reflexivity)) as (old' & new' & E & F1 & F2 & F3 & F4 & F5); [intros d I; apply HZ in I; lia|].
  rewrite E. cbn [bind snd].
  destruct (leaves_loop c tags' (zfromto 1 (dim + 1)) new') as (o & -> & HO).
  { apply zfromto_NoDup. }
  { intros d I. apply HZ in I. split; [exact I|]. split; [apply HT; lia|]. rewrite F3. reflexivity. }
  { exact F1. } { exact F2. } { exact F4. }
  cbn [bind]. destruct (zget_in_range tags 0) as (vt & EV); [lia|]. rewrite EV. cbn [bind]. eexists. split; [reflexivity|]. intros new ts Eo. destruct o as [(m2 & ls)|]; [|discriminate]. injection Eo as <- <-.
  destruct (HO m2 ls eq_refl) as (Q1 & Q2 & Q3 & Q4). split; [exact Q2|]. split; [exact Q3|]. split; [rewrite Q1, F5; [reflexivity|rewrite HZ; lia]|]. intros d Hd. split.
  - destruct (F4 d ltac:(apply HZ; exact Hd)) as (p & Fp & Rp). exists p. rewrite Q1. auto.
  - destruct (Forall2_zget _ _ _ Q4 (d - 1) d) as (l & El & R); [rewrite zget_zfromto by lia; f_equal; lia|]. exists l. rewrite zget_S by lia. rewrite zget_map, El. auto.
Qed.
End whole.
