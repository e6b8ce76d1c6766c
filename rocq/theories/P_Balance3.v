(** Proofs about Mesh::balance: from the bisection to the whole. *)
From Coq Require Import Sorting.Sorted.
From Verif Require Import Prelude M_Array M_Par M_Scan M_Sort M_Map M_Tags M_Template M_Linpart M_Bipart M_Dist M_Owners S_Sort S_Map S_Dist S_Owners M_Migrate S_Migrate M_Ghost S_Ghost M_Parting S_Parting M_Balance S_Balance.
From Verif Require Import P_Sort P_Map P_Fan P_Dist P_Dist2 P_Dist3 P_Dist5 P_Dist6 P_Owners P_Link P_Migrate2 P_Migrate4 P_Migrate5 P_Migrate6 P_Ghost3 P_Ghost4 P_Ghost5 P_Ghost6 P_Parting P_Parting2 P_Parting3 P_Balance P_Balance2.
Local Open Scope Z_scope.

(** ** no rank has an element twice *)
Lemma once_moved nranks mode m m' srcs elems src : sound nranks m -> agrees m -> agrees m' -> migrated mode m m' srcs -> owners_present mode m srcs -> elems_of m = Ok elems -> zget srcs (dm_dim m) = Ok src ->
  (forall s c t j, copy_of src s c t j -> is_owner elems t j) -> (forall s x y t j, copy_of src s x t j -> copy_of src s y t j -> x = y) -> each_once m'.
Proof.
  intros Sm Am Am' Mv Pr He Hs Own Un elems' s x y t j He' O1 O2. destruct (old_of nranks mode m m' srcs elems src Sm Am Am' Mv Pr He Hs Own elems' He' t j) as (t0 & j0 & _ & _ & F); [exists s, x; exact O1|]. apply F in O1, O2. eauto.
Qed.
Lemma nodup_copies src s x y t j : (forall l, zget src s = Ok l -> NoDup l) -> copy_of src s x t j -> copy_of src s y t j -> x = y.
Proof. intros N (l & Hl & Hx) (l' & Hl' & Hy). assert (l' = l) as -> by congruence. exact (NoDup_zget _ _ _ _ (N l Hl) Hx Hy). Qed.
Lemma once_by_elems inv nranks m m' : inverter inv -> usable nranks m -> each_once m -> partition_by_elems inv m = Ok m' -> each_once m'.
Proof.
  intros Hinv (Sm & Am & Cm & Wm) O1 E. destruct (ends_of nranks m Sm) as (elems & verts & He & Hv). destruct (by_elems_ok inv nranks m elems Hinv Sm He) as (m2 & srcs & src & E' & Mv & Hs & [Ls Oo] & Sm' & Am' & Cm'). assert (m2 = m') as -> by congruence. pose proof (s_level _ _ Sm _ _ He) as Se.
  assert (owners_present OMEGA_H_ELEM_BASED m srcs) as Pr by (intros d e src0 s c r q k Hk; discriminate).
  assert (forall s l o c t j, zget src s = Ok l -> Forall2 (fun x p => owner_is (de_ranks elems) (de_idxs elems) s x (fst p) (snd p)) o l -> zget l c = Ok (t, j) -> exists x, zget o c = Ok x /\ owner_is (de_ranks elems) (de_idxs elems) s x t j) as At.
  { intros s l o c t j Hl F Hc. pose proof (zget_bounds _ _ _ Hc) as B. assert (zlen o = zlen l) as L by (unfold zlen; f_equal; exact (Forall2_len _ _ _ F)). destruct (zget_in_range o c ltac:(lia)) as (x & Hx). exists x. split; [exact Hx|]. exact (Forall2_at _ _ _ c x (t, j) F Hx Hc). }
  apply (once_moved nranks OMEGA_H_ELEM_BASED m m' srcs elems src Sm Am Am' Mv Pr He Hs).
  - intros s c t j (l & Hl & Hc). destruct (Oo s l Hl) as (o & _ & Io & F). destruct (At s l o c t j Hl F Hc) as (x & _ & O). exists s, x. exact O.
  - intros s x y t j (l & Hl & Hx) (l' & Hl' & Hy). assert (l' = l) as -> by congruence. destruct (Oo s l Hl) as (o & So & Io & F). destruct (At s l o x t j Hl F Hx) as (a & Ha & Oa). destruct (At s l o y t j Hl F Hy) as (b & Hb & Ob). pose proof (O1 elems s a b t j He Oa Ob) as ->.
    refine (NoDup_zget o x y b _ Ha Hb). clear - So. induction So as [|z o So IH Fz]; constructor; [|exact IH]. rewrite Forall_forall in Fz. intros I. apply Fz in I. lia.
Qed.
Lemma once_by_verts inv nranks m m' a elems verts : inverter inv -> usable nranks m -> elems_of m = Ok elems -> verts_of m = Ok verts -> answered m elems verts a -> partition_by_verts inv m a = Ok m' -> each_once m'.
Proof.
  intros Hinv (Sm & Am & Cm & Wm) He Hv Wa E. destruct (by_verts_ok inv nranks m elems verts a Hinv Sm Am Hv He Wa) as (m2 & srcs & src & E' & Mv & Hs & X & Pr & Sm' & Am' & Cm'). assert (m2 = m') as -> by congruence.
  apply (once_moved nranks OMEGA_H_VERT_BASED m m' srcs elems src Sm Am Am' Mv Pr He Hs).
  - intros s c t j (l & Hl & Hc). apply zget_In in Hc. destruct X as [_ G]. apply (proj1 (proj2 (G s l Hl))) in Hc. apply Hc.
  - intros s x y t j. apply nodup_copies. intros l Hl. apply (proj2 X s l Hl).
Qed.
Lemma once_ghosted inv nranks m m' a elems verts have want : inverter inv -> usable nranks m -> elems_of m = Ok elems -> verts_of m = Ok verts -> answered m elems verts a -> 0 <= have < want -> want = have + 1 \/ dm_family m = OMEGA_H_SIMPLEX ->
  ghost_mesh inv m a have want = Ok m' -> each_once m'.
Proof.
  intros Hinv (Sm & Am & Cm & Wm) He Hv Wa Hw Hf E. destruct (ghost_ok inv nranks m elems verts a Hinv Sm Am Cm Hv He Wa have want Hw Hf) as (m2 & srcs & src & E' & Mv & Hs & X & Pr & Sm' & Am' & Cm'). assert (m2 = m') as -> by congruence.
  apply (once_moved nranks OMEGA_H_GHOSTED m m' srcs elems src Sm Am Am' Mv Pr He Hs).
  - intros s c t j (l & Hl & Hc). apply zget_In in Hc. destruct X as [_ G]. apply (proj1 (proj2 (G s l Hl))) in Hc. eapply within_owner; eauto.
  - intros s x y t j. apply nodup_copies. intros l Hl. apply (proj2 X s l Hl).
Qed.
Lemma once_to_elems inv ask nranks again pm pm' : inverter inv -> parted nranks pm -> each_once (pm_mesh pm) -> set_parting_step again inv ask nranks pm OMEGA_H_ELEM_BASED 0 = Ok pm' -> each_once (pm_mesh pm').
Proof.
  intros Hinv P O1. unfold set_parting_step. destruct (pm_parting pm) as [old|]; [|intros E; injection E as <-; exact O1]. destruct (same_parting old OMEGA_H_ELEM_BASED && (pm_layers pm =? 0)); [intros E; injection E as <-; exact O1|].
  cbn [Z.eqb check bind]. destruct (1 <? nranks); cbn [bind]; [|intros E; injection E as <-; exact O1]. destruct (partition_by_elems inv (pm_mesh pm)) as [m'| |] eqn:Ep; cbn [bind]; intros E; [|discriminate..]. injection E as <-. cbn [pm_mesh]. apply (once_by_elems inv nranks (pm_mesh pm) m' Hinv); [apply parted_usable; exact P|exact O1|exact Ep].
Qed.

Lemma once_set_parting inv ask nranks pm p n pm' : inverter inv -> answers nranks ask -> parted nranks pm -> admissible (pm_mesh pm) p n -> each_once (pm_mesh pm) -> set_parting inv ask nranks pm p n = Ok pm' -> each_once (pm_mesh pm').
Proof.
  intros Hinv Hask P Ad O1. pose proof (parted_usable _ _ P) as U. pose proof (proj1 U) as Sm. destruct p; [cbn in Ad; subst n; apply (once_to_elems inv ask nranks); assumption| |].
  - unfold set_parting, set_parting_step at 1. destruct (pm_parting pm) as [old|] eqn:Eo; [|intros E; injection E as <-; exact O1]. destruct (same_parting old OMEGA_H_GHOSTED && (pm_layers pm =? n)) eqn:Es; [intros E; injection E as <-; exact O1|].
    assert (exists pm1, (if negb (same_parting old OMEGA_H_GHOSTED) || (n <? pm_layers pm) then set_parting_step (fun _ => UB) inv ask nranks pm OMEGA_H_ELEM_BASED 0 else Ok pm) = Ok pm1 /\
      usable nranks (pm_mesh pm1) /\ 0 <= pm_layers pm1 < n /\ each_once (pm_mesh pm1) /\ (n = pm_layers pm1 + 1 \/ dm_family (pm_mesh pm1) = OMEGA_H_SIMPLEX)) as (pm1 & E1 & U1 & B1 & O2 & Hf).
    { destruct (negb (same_parting old OMEGA_H_GHOSTED) || (n <? pm_layers pm)) eqn:Er.
      - destruct (to_elems inv ask nranks Hinv (fun _ => UB) pm old P Eo) as (pm1 & R1 & E1 & E2 & E3 & P1 & I1). exists pm1. split; [exact E1|]. split; [exact (parted_usable _ _ P1)|]. rewrite E3, (i_family _ _ _ I1). split; [cbn in Ad; destruct Ad as [E9|[]]; lia|]. split; [exact (once_to_elems inv ask nranks _ pm pm1 Hinv P O1 E1)|]. cbn in Ad. destruct Ad as [E9|[_ Ef]]; [left; lia|right; exact Ef].
      - apply Bool.orb_false_iff in Er as [E1 E2]. apply Bool.negb_false_iff, same_parting_ok in E1. subst old. apply Z.ltb_ge in E2. exists pm. split; [reflexivity|]. split; [exact U|]. destruct P as (_ & _ & _ & _ & D). rewrite Eo in D. destruct (ends_of _ _ Sm) as (elems & _ & He & _). destruct (D elems He) as [D0 _]. cbn [same_parting andb] in Es. apply Z.eqb_neq in Es. split; [lia|]. split; [exact O1|]. cbn in Ad. destruct Ad as [E9|[_ Ef]]; [left; lia|right; exact Ef]. }
    rewrite E1. cbn [bind]. destruct (1 <? nranks); cbn [bind]; [|intros E; injection E as <-; exact O2]. destruct U1 as (S1 & A1 & C1 & W1). destruct (ends_of _ _ S1) as (elems & verts & He & Hv). destruct (Hask _ elems verts S1 He Hv W1) as (a & Ea & Wa). rewrite Ea. cbn [bind].
    destruct (ghost_mesh inv (pm_mesh pm1) a (pm_layers pm1) n) as [m'| |] eqn:Eg; cbn [bind]; intros E; [|discriminate..]. injection E as <-. cbn [pm_mesh]. eapply (once_ghosted inv nranks (pm_mesh pm1) m' a elems verts); eauto. split; [exact S1|]. auto.
  - unfold set_parting, set_parting_step at 1. destruct (pm_parting pm) as [old|] eqn:Eo; [|intros E; injection E as <-; exact O1]. destruct (same_parting old OMEGA_H_VERT_BASED && (pm_layers pm =? n)) eqn:Es; [intros E; injection E as <-; exact O1|].
    cbn in Ad. subst n. cbn [Z.eqb Pos.eqb check bind]. destruct (1 <? nranks); cbn [bind]; [|intros E; injection E as <-; exact O1]. destruct U as (S1 & A1 & C1 & W1). destruct (ends_of _ _ S1) as (elems & verts & He & Hv). destruct (Hask _ elems verts S1 He Hv W1) as (a & Ea & Wa). rewrite Ea. cbn [bind].
    destruct (partition_by_verts inv (pm_mesh pm) a) as [m'| |] eqn:Eg; cbn [bind]; intros E; [|discriminate..]. injection E as <-. cbn [pm_mesh]. eapply (once_by_verts inv nranks (pm_mesh pm) m' a elems verts); eauto. split; [exact S1|]. auto.
Qed.

(** ** balance *)
Section one_rank_each.
Context (inv : Z -> list Z -> Z -> res (list Z * list Z)) (nranks : Z).
Hypothesis Hinv : inverter inv.

(** elements that are on one rank each own themselves *)
Lemma own_self m elems s x t j : agrees m -> each_once m -> distributed m OMEGA_H_ELEM_BASED 0 -> elems_of m = Ok elems -> owner_is (de_ranks elems) (de_idxs elems) s x t j -> t = s /\ j = x.
Proof using Type.
  intros Am O1 Dm He O. destruct (Dm elems He) as [_ D]. pose proof (D s t j ltac:(exists x; exact O)) as ->. split; [reflexivity|]. destruct (proj1 Am _ _ He s x s j O) as [O' _]. exact (O1 elems s j x s j He O' O).
Qed.
Lemma follows m elems who ranks idxs : sound nranks m -> agrees m -> each_once m -> distributed m OMEGA_H_ELEM_BASED 0 -> elems_of m = Ok elems -> dealt (de_nents elems) who ->
  delivered who (de_ranks elems) ranks 1 -> delivered who (de_idxs elems) idxs 1 -> ranks = map (map fst) who /\ idxs = map (map snd) who.
Proof using Type.
  intros Sm Am O1 Dm He Dw D1 D2. pose proof (s_level _ _ Sm _ _ He) as Se. destruct (l_size _ _ Se) as [L1 G1]. destruct (level_idxs _ _ Se) as [L2 G2]. destruct Dw as (Lw & Rw & _).
  assert (forall (x : list (list Z)) y f, (forall s c t j, owner_is (de_ranks elems) (de_idxs elems) s c t j -> goes_to x s c (f (t, j))) -> zlen x = zlen (de_nents elems) -> delivered who x y 1 -> y = map (map f) who) as Gen.
  { intros x y f Hf Lx [Ly Gy]. apply list_eq_zget; [rewrite zlen_map; exact Ly|]. intros s Bs. destruct (zget_in_range y s Bs) as (v & Hv). destruct (zget_in_range who s ltac:(lia)) as (l & Hl). rewrite Hv, (zget_map_ok _ _ _ _ Hl). f_equal. destruct (Gy s l v Hl Hv) as [Lv Gv].
    apply list_eq_zget; [rewrite zlen_map; lia|]. intros c Bc. destruct (zget_in_range l c ltac:(lia)) as ([r q] & Hc). rewrite (zget_map_ok _ _ _ _ Hc). destruct (Rw s c r q) as (n & Hn & Bq); [exists l; auto|]. destruct (owner_exists nranks elems r n q Se Hn Bq) as (t & j & O). destruct (own_self m elems r q t j Am O1 Dm He O) as [-> ->].
    destruct (Hf _ _ _ _ O) as (b & Hb & Hq). destruct (Gv c r q b Hc Hb 0 ltac:(lia)) as (z & Z1 & Z2). replace (c * 1 + 0) with c in Z1 by lia. replace (q * 1 + 0) with q in Z2 by lia. congruence. }
  split; [apply (Gen (de_ranks elems))|apply (Gen (de_idxs elems))]; auto; intros s c t j [A B]; assumption.
Qed.

(** every rank has exactly the elements dealt to it, and nobody else has them *)
Lemma migrate_to_same m elems who : usable nranks m -> each_once m -> distributed m OMEGA_H_ELEM_BASED 0 -> elems_of m = Ok elems -> dealt (de_nents elems) who ->
  exists m' R, migrate_to inv m elems (map (map fst) who) (map (map snd) who) = Ok m' /\ usable nranks m' /\ distributed m' OMEGA_H_ELEM_BASED 0 /\ each_once m' /\ same_mesh m m' R /\
  forall r q s, (exists c, R (dm_dim m) r q s c) <-> exists c, copy_of who s c r q.
Proof using Hinv.
  intros (Sm & Am & Cm & Wm) O1 Dm He Dw. destruct (migrate_to_ok inv nranks m elems who Hinv Sm He Dw) as (m' & srcs & src & E & Mv & Hs & Ls & Same & Sm' & Am' & Cm'). pose proof (s_level _ _ Sm _ _ He) as Se. pose proof (l_nranks _ _ Se) as Ne. destruct Dw as (Lw & Rw & Ew & Uw).
  assert (owners_present OMEGA_H_ELEM_BASED m srcs) as Pr by (intros d e src0 s c r q k Hk; discriminate).
  assert (forall s r q, (exists c, copy_of src s c r q) <-> exists c, copy_of who s c r q) as Cp.
  { intros s r q. split; intros (c & l & Hl & Hc).
    - destruct (zget_in_range who s) as (w & Hw); [rewrite Lw, Ne, <- Ls; eapply zget_bounds; eauto|]. apply zget_In in Hc. apply (proj2 (Same s w l Hw Hl)) in Hc. destruct (In_zget _ _ Hc) as (c' & Hc'). exists c', w. auto.
    - destruct (zget_in_range src s) as (w & Hw); [rewrite Ls, <- Ne, <- Lw; eapply zget_bounds; eauto|]. apply zget_In in Hc. apply (proj2 (Same s l w Hl Hw)) in Hc. destruct (In_zget _ _ Hc) as (c' & Hc'). exists c', w. auto. }
  assert (forall s c r q, copy_of src s c r q -> owner_is (de_ranks elems) (de_idxs elems) r q r q) as Self.
  { intros s c r q C. destruct (proj1 (Cp s r q)) as (c' & C'); [eauto|]. destruct (Rw _ _ _ _ C') as (n & Hn & Bq). destruct (owner_exists nranks elems r n q Se Hn Bq) as (t & j & O). destruct (own_self m elems r q t j Am O1 Dm He O) as [-> ->]. exact O. }
  assert (forall s c t j, copy_of src s c t j -> is_owner elems t j) as Own by (intros s c t j C; exists t, j; eapply Self; eauto).
  assert (forall t j, is_owner elems t j -> exists s c, copy_of src s c t j) as Every.
  { intros t j (s & x & O). destruct (proj1 Am _ _ He s x t j O) as [O' _]. destruct (owner_range nranks elems t j t j Se O') as (n & Hn & B). destruct (Ew t j n Hn B) as (s' & c & C). exists s'. apply Cp. eauto. }
  assert (forall s c s' c' r q, copy_of src s c r q -> copy_of src s' c' r q -> s = s' /\ c = c') as Un.
  { intros s c s' c' r q C C'. assert (s = s') as ->. { destruct (proj1 (Cp s r q)) as (a & A); [eauto|]. destruct (proj1 (Cp s' r q)) as (b & B); [eauto|]. apply (Uw s a s' b r q A B). } split; [reflexivity|].
    apply (nodup_copies src s' c c' r q); [|exact C|exact C']. intros l Hl. destruct (zget_in_range who s') as (w & Hw); [rewrite Lw, Ne, <- Ls; eapply zget_bounds; eauto|]. apply (Same s' w l Hw Hl). }
  pose proof (migrated_same nranks OMEGA_H_ELEM_BASED m m' srcs elems src Sm Am Cm Mv Pr He Hs ltac:(lia) Own Every) as I.
  exists m', (moved_to m srcs). split; [exact E|]. split; [|split; [|split; [|split; [exact I|]]]].
  - split; [exact Sm'|]. split; [exact Am'|]. split; [exact Cm'|]. apply (moved_answerable nranks OMEGA_H_ELEM_BASED m m' srcs elems src); auto.
  - intros elems' He'. split; [reflexivity|]. intros s t j (x & O). destruct (old_of nranks OMEGA_H_ELEM_BASED m m' srcs elems src Sm Am Am' Mv Pr He Hs Own elems' He' t j) as (t0 & j0 & _ & C & F); [exists s, x; exact O|]. apply F in O. apply (Un _ _ _ _ _ _ C O).
  - apply (once_moved nranks OMEGA_H_ELEM_BASED m m' srcs elems src Sm Am Am' Mv Pr He Hs Own). intros s x y t j C C'. apply (Un _ _ _ _ _ _ C C').
  - intros r q s. rewrite <- Cp. split.
    + intros (c & e & sr & t & j & H1 & H2 & H3 & H4). unfold elems_of in He. assert (e = elems) as -> by congruence. assert (sr = src) as -> by congruence. destruct (own_self m elems r q t j Am O1 Dm He H3) as [-> ->]. eauto.
    + intros (c & C). exists c. exists elems, src, r, q. split; [exact He|]. split; [exact Hs|]. split; [eapply Self; eauto|exact C].
Qed.

End one_rank_each.

Section balance.
Context {T : Type} (inv : Z -> list Z -> Z -> res (list Z * list Z)) (ask : dmesh -> res asked) (weigh : dmesh -> res (list (list T) * list (list T)))
  (mark : list Z -> list (list T) -> list (list T) -> res (list (list Z))) (nranks : Z).
Hypothesis Hinv : inverter inv.
Hypothesis Hask : answers nranks ask.
Hypothesis Hweigh : weighs nranks weigh.
Hypothesis Hmark : marks_all mark.

Lemma fuel_enough k : (k <= Z.to_nat (2 ^ Z.of_nat k))%nat.
Proof using Type. clear. assert (Z.of_nat k < 2 ^ Z.of_nat k) by (apply Z.pow_gt_lin_r; lia). lia. Qed.

Lemma balance_ok k pm : nranks = 2 ^ Z.of_nat k -> parted nranks pm -> (pm_parting pm = None -> distributed (pm_mesh pm) OMEGA_H_ELEM_BASED 0) -> each_once (pm_mesh pm) ->
  exists pm' R, balance inv ask weigh mark nranks pm = Ok pm' /\ parted nranks pm' /\ same_mesh (pm_mesh pm) (pm_mesh pm') R /\ each_once (pm_mesh pm') /\
  (nranks <> 1 -> pm_parting pm' = Some OMEGA_H_ELEM_BASED /\ pm_layers pm' = 0 /\
    exists pm1 R1 elems coords masses coords' masses' who, set_parting inv ask nranks pm OMEGA_H_ELEM_BASED 0 = Ok pm1 /\ elems_of (pm_mesh pm1) = Ok elems /\ weigh (pm_mesh pm1) = Ok (coords, masses) /\
      recursively_bisect (Z.to_nat nranks) inv mark [] coords masses (de_ranks elems) (de_idxs elems) = Ok (coords', masses', map (map fst) who, map (map snd) who) /\ dealt (de_nents elems) who /\
      same_mesh (pm_mesh pm1) (pm_mesh pm') R1 /\ forall r q s, (exists c, R1 (dm_dim (pm_mesh pm1)) r q s c) <-> exists c, copy_of who s c r q).
Proof using Hinv Hask Hweigh Hmark.
  intros Ek P Hnone O1. unfold balance. destruct (Z.eqb_spec nranks 1) as [E1|N1].
  { exists pm, (itself (pm_mesh pm)). split; [reflexivity|]. split; [exact P|]. split; [eapply same_mesh_refl; apply P|]. split; [exact O1|]. intros H. contradiction. }
  destruct (set_parting_ok inv ask nranks Hinv Hask pm OMEGA_H_ELEM_BASED 0 P eq_refl Hnone) as (pm1 & R1 & E1 & F1 & F2 & P1 & I1). unfold set_parting_default. rewrite E1. cbn [bind].
  pose proof (once_to_elems inv ask nranks _ pm pm1 Hinv P O1 E1) as O2. pose proof (parted_usable nranks pm1 P1) as U1. destruct P1 as (Sm & Am & Cm & Wm & Dm). rewrite F1, F2 in Dm. set (m := pm_mesh pm1) in *. destruct (ends_of nranks m Sm) as (elems & verts & He & Hv). rewrite He. cbn [bind].
  destruct (Hweigh m elems Sm He) as (coords & masses & Ew & Dc & Dms). rewrite Ew. cbn [bind]. pose proof (s_level _ _ Sm _ _ He) as Se. pose proof (l_nranks _ _ Se) as Ne. pose proof (s_ranks _ _ Sm) as Br.
  destruct (bisect_ok inv mark Hinv Hmark k (Z.to_nat nranks) [] coords masses (de_ranks elems) (de_idxs elems) (de_nents elems)) as (c' & m' & ranks & idxs & who & Eb & Dw & _ & _ & Dr & Di & _); [rewrite Ek; apply fuel_enough|lia|lia|exact Dc|exact Dms|apply (l_size _ _ Se)|apply (level_idxs _ _ Se)|].
  rewrite Eb. cbn [bind]. destruct (follows nranks m elems who ranks idxs Sm Am O2 Dm He Dw Dr Di) as [-> ->]. destruct (migrate_to_same inv nranks Hinv m elems who U1 O2 Dm He Dw) as (m2 & R2 & -> & U2 & D2 & O3 & I2 & X2). cbn [bind]. rewrite F1, F2. exists (PMesh m2 (Some OMEGA_H_ELEM_BASED) 0), (chain R1 R2). split; [reflexivity|]. cbn [pm_mesh pm_parting pm_layers]. split; [apply parted_intro; assumption|]. split; [exact (same_mesh_chain nranks _ _ _ _ _ Sm I1 I2)|]. split; [exact O3|]. intros _. split; [reflexivity|]. split; [reflexivity|]. exists pm1, R2, elems, coords, masses, c', m', who. fold m. auto 10.
Qed.

Lemma balance_refuses k o pm : nranks = 2 ^ Z.of_nat k * o -> o mod 2 = 1 -> 1 < o -> parted nranks pm -> (pm_parting pm = None -> distributed (pm_mesh pm) OMEGA_H_ELEM_BASED 0) -> balance inv ask weigh mark nranks pm = Abort.
Proof using Hinv Hask Hweigh Hmark.
  intros Ek Oo Bo P Hnone. pose proof (Z.pow_pos_nonneg 2 (Z.of_nat k) ltac:(lia) ltac:(lia)) as Pk. unfold balance. destruct (Z.eqb_spec nranks 1) as [E1|N1]; [nia|].
  destruct (set_parting_ok inv ask nranks Hinv Hask pm OMEGA_H_ELEM_BASED 0 P eq_refl Hnone) as (pm1 & R1 & E1 & F1 & F2 & P1 & I1). unfold set_parting_default. rewrite E1. cbn [bind]. pose proof (proj1 P1) as Sm. set (m := pm_mesh pm1) in *. destruct (ends_of nranks m Sm) as (elems & verts & He & Hv). rewrite He. cbn [bind].
  destruct (Hweigh m elems Sm He) as (coords & masses & -> & Dc & Dms). cbn [bind]. pose proof (s_level _ _ Sm _ _ He) as Se. pose proof (l_nranks _ _ Se) as Ne. pose proof (s_ranks _ _ Sm) as Br.
  rewrite (bisect_refuses inv mark Hinv Hmark k (Z.to_nat nranks) [] coords masses (de_ranks elems) (de_idxs elems) (de_nents elems) o); [reflexivity| |lia|exact Oo|exact Bo|lia|exact Dc|exact Dms|apply (l_size _ _ Se)|apply (level_idxs _ _ Se)].
  pose proof (Z.pow_gt_lin_r 2 (Z.of_nat k) ltac:(lia) ltac:(lia)). nia.
Qed.
End balance.
