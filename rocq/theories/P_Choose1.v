(** Choosing what to collapse: the codes. *)
From Coq Require Import String Permutation Sorted.
From Verif Require Import Prelude M_Array P_Array M_Par M_Scan P_Fan S_Sort M_Sort M_Map S_Map P_Map P_Map2 M_Template S_Template P_Template M_Align S_Align P_Align M_Graph S_Graph P_Graph M_Unique S_Unique P_Unique M_Adj S_Adj P_Adj S_Transit P_Transit S_Across P_Across
  M_Match S_Match P_Match M_Tags M_MeshAdj S_MeshAdj P_MeshAdj P_MeshAdj2 P_MeshAdj3 M_Build S_Build P_Build P_Box S_Unmap P_Unmap P_Mark M_Coarsen S_Coarsen P_Dead P_Coarsen
  M_Modify S_Modify P_Modify P_Modify2 S_Swap3d M_RefineMesh S_RefineMesh S_Rebuild P_Rebuild P_Rebuild2 P_Rebuild3 P_RefineMesh1 P_RefineMesh2 P_RefineMesh4 P_RefineMesh5 P_Flip4 S_Patch P_Patch M_Collapse S_Collapse P_Collapse1 P_Collapse2 P_Collapse3 M_Choose S_Choose.
Local Open Scope Z_scope.

Definition enc (a b : bool) : Z := (if a then 1 else 0) + (if b then 2 else 0).
Definition encA (A : Z -> Z -> bool) (e : Z) : Z := enc (A e 0) (A e 1).
Lemma enc_zero a b : enc a b = 0 <-> a = false /\ b = false. Proof. destruct a, b; cbn; intuition (discriminate || lia). Qed.
Lemma enc_range a b : 0 <= enc a b <= 3. Proof. destruct a, b; cbn; lia. Qed.
Lemma has_bit a b : code_collapses (enc a b) 0 = a /\ code_collapses (enc a b) 1 = b. Proof. destruct a, b; split; reflexivity. Qed.
Lemma off0 a b : dont_collapse (enc a b) 0 = enc false b. Proof. destruct a, b; reflexivity. Qed.
Lemma off1 a b : dont_collapse (enc a b) 1 = enc a false. Proof. destruct a, b; reflexivity. Qed.
Lemma on0 b : do_collapse (enc false b) 0 = enc true b. Proof. destruct b; reflexivity. Qed.
Lemma on1 a : do_collapse (enc a false) 1 = enc a true. Proof. destruct a; reflexivity. Qed.

(** candidates and their codes say which ends of which edges may go *)
Definition holds (ne : Z) (A : Z -> Z -> bool) (cands : list Z) : Prop :=
  NoDup cands /\ (forall e, In e cands -> 0 <= e < ne) /\ forall e, 0 <= e < ne -> encA A e <> 0 -> In e cands.
Definition sharp (A : Z -> Z -> bool) (cands : list Z) : Prop := forall e, In e cands -> encA A e <> 0.

Lemma mapM_nodup {A B} (f : A -> res B) l r : mapM f l = Ok r -> NoDup l -> (forall x y z, In x l -> In y l -> f x = Ok z -> f y = Ok z -> x = y) -> NoDup r.
Proof.
  revert r. induction l as [|x l IH]; intros r E N H; cbn [mapM] in E; [injection E as <-; constructor|]. destruct (f x) as [y| |] eqn:Ex; try discriminate. cbn [bind] in E. destruct (mapM f l) as [ys| |] eqn:El; try discriminate. injection E as <-. inversion N as [|? ? N1 N2]; subst. constructor.
  - intros I. destruct (mapM_in_inv _ _ _ _ El I) as (z & Ez & Iz). rewrite (H x z y (or_introl eq_refl) (or_intror Iz) Ex Ez) in N1. contradiction.
  - apply IH; [reflexivity|exact N2|]. intros a b z Ia Ib. apply H; right; assumption.
Qed.
Lemma kept (f : Z -> Z) l : NoDup l -> exists r l', collect_marked (each_candidate (map f l)) = Ok r /\ mapM (zget l) r = Ok l' /\ unmap r l 1 = Ok l' /\ unmap r (map f l) 1 = Ok (map f l') /\
  NoDup l' /\ forall e, In e l' <-> In e l /\ f e <> 0.
Proof.
  intros N. unfold each_candidate. rewrite map_map. destruct (collect_marked_full (map (fun x => if f x =? DONT_COLLAPSE then 0 else 1) l)) as (r & E & S & I).
  { intros m Hm. apply in_map_iff in Hm as (x & <- & _). destruct (f x =? DONT_COLLAPSE); auto. }
  assert (forall i, In i r <-> exists x, zget l i = Ok x /\ f x <> 0) as J.
  { intros i. rewrite I. split.
    - intros H. rewrite zget_map in H. destruct (zget l i) as [x| |] eqn:Ex; try discriminate. cbn [bind] in H. injection H as H. exists x. split; [reflexivity|]. destruct (Z.eqb_spec (f x) DONT_COLLAPSE) as [|Nx]; [discriminate|exact Nx].
    - intros (x & Ex & Nx). rewrite zget_map, Ex. cbn [bind]. destruct (Z.eqb_spec (f x) DONT_COLLAPSE) as [Q|]; [|reflexivity]. contradiction. }
  destruct (mapM_total (zget l) r) as (l' & El). { intros i Hi. apply J in Hi as (x & Ex & _). eauto. }
  exists r, l'. split; [exact E|]. split; [exact El|]. assert (forall b, In b r -> 0 <= b < zlen l) as B. { intros b Hb. apply J in Hb as (x & Ex & _). eapply zget_bounds, Ex. }
  split; [apply P_Graph.unmap1; [exact B|exact El]|]. split; [apply P_Graph.unmap1; [unfold zlen; rewrite map_length; exact B|]|].
  { clear - El. revert l' El. induction r as [|i r IH]; intros l' El; cbn [mapM] in *; [injection El as <-; reflexivity|]. destruct (zget l i) as [x| |] eqn:Ex; try discriminate. cbn [bind] in *. destruct (mapM (zget l) r) as [ys| |]; try discriminate. injection El as <-. rewrite zget_map, Ex. cbn [bind]. cbn [bind]. rewrite (IH ys eq_refl). reflexivity. }
  split.
  - eapply mapM_nodup; [exact El| |].
    + apply strict_nodup, StronglySorted_Sorted, S.
    + intros x y z _ _ Ex Ey. exact (NoDup_zget _ _ _ _ N Ex Ey).
  - intros e. split.
    + intros H. destruct (mapM_in_inv _ _ _ _ El H) as (i & Ei & Ii). apply J in Ii as (x & Ex & Nx). assert (x = e) as -> by congruence. split; [eapply zget_In, Ei|exact Nx].
    + intros [H Nx]. destruct (In_zget _ _ H) as (i & Ei). destruct (mapM_in _ _ _ i El) as (y & Ey & Iy); [apply J; eauto|]. congruence.
Qed.
Lemma filtered ne A B cands : holds ne A cands -> (forall e, encA B e <> 0 -> encA A e <> 0) ->
  exists cands', filter_candidates cands (map (encA B) cands) = Ok (cands', map (encA B) cands') /\ holds ne B cands' /\ sharp B cands'.
Proof.
  intros (N & R & C) HB. destruct (kept (encA B) cands N) as (r & l & E1 & _ & E2 & E3 & N' & I). exists l. split; [unfold filter_candidates; rewrite E1; cbn [bind]; rewrite E2; cbn [bind]; rewrite E3; reflexivity|].
  split; [split; [exact N'|]; split|]; [intros e H; apply R, I, H|intros e He H; apply I; split; [apply C; [exact He|apply HB, H]|exact H]|intros e H; apply I, H].
Qed.
Lemma collected ne A : 0 <= ne -> exists cands, candidates (map (encA A) (zrange ne)) = Ok (cands, map (encA A) cands) /\ holds ne A cands /\ sharp A cands.
Proof.
  intros Hn. destruct (kept (encA A) (zrange ne)) as (r & l & E1 & E2 & _ & E3 & N' & I); [apply zrange_NoDup|].
  assert (l = r) as ->. { clear - E2. revert l E2. induction r as [|i r IH]; intros l E; cbn [mapM] in E; [injection E as <-; reflexivity|]. destruct (zget (zrange ne) i) as [x| |] eqn:Ex; try discriminate. cbn [bind] in E. destruct (mapM (zget (zrange ne)) r) as [ys| |]; try discriminate. injection E as <-. f_equal; [|apply IH; reflexivity]. apply zget_ok in Ex as [H0 Ex]. unfold zrange in Ex. rewrite nth_error_map in Ex. destruct (nth_error (seq 0 (Z.to_nat ne)) (Z.to_nat i)) as [k|] eqn:Ek; [|discriminate]. cbn in Ex. injection Ex as <-. apply nth_error_nth with (d := 0%nat) in Ek as Ek'. assert (Z.to_nat i < length (seq 0 (Z.to_nat ne)))%nat as Hl by (apply nth_error_Some; congruence). rewrite seq_length in Hl. rewrite seq_nth in Ek' by exact Hl. lia. }
  exists r. split; [unfold candidates; rewrite E1; cbn [bind]; rewrite E3; reflexivity|]. split; [split; [exact N'|]; split|]; [intros e H; apply I in H as [H _]; apply in_zrange, H|intros e He H; apply I; split; [apply in_zrange, He|exact H]|intros e H; apply I, H].
Qed.
Lemma at_cand A cands cand e : zget cands cand = Ok e -> zget (map (encA A) cands) cand = Ok (encA A e). Proof. intros E. rewrite zget_map, E. cbn [bind]. reflexivity. Qed.
Lemma over_cands (cands : list Z) (f : Z -> res Z) (g : Z -> Z) : (forall cand e, zget cands cand = Ok e -> f cand = Ok (g e)) -> tabulate (zlen cands) f = Ok (map g cands).
Proof.
  intros H. apply tabulate_ok; [apply zlen_nonneg|]. split; [unfold zlen; rewrite map_length; reflexivity|]. intros i Hi. destruct (zget_in_range cands i Hi) as (e & Ee). exists (g e). split; [apply H, Ee|]. rewrite zget_map, Ee. reflexivity.
Qed.
Lemma put_back ne A B cands : 0 <= ne -> holds ne A cands -> (forall e, encA B e <> 0 -> encA A e <> 0) -> map_onto (map (encA B) cands) cands ne DONT_COLLAPSE 1 = Ok (map (encA B) (zrange ne)).
Proof.
  intros Hn (N & R & C) HB. destruct (map_onto_spec (map (encA B) cands) cands ne DONT_COLLAPSE 1) as (r & E & L & P1 & P2); [lia|exact Hn|unfold zlen; rewrite map_length; lia|exact N|exact R|]. rewrite E. f_equal. apply list_eq_zget; [unfold zlen in *; rewrite map_length, zrange_length; lia|].
  intros e He. assert (0 <= e < ne) as Re by lia. rewrite zget_map, zget_zrange by exact Re. cbn [bind]. destruct (in_dec Z.eq_dec e cands) as [I|I].
  - destruct (In_zget _ _ I) as (a & Ea). specialize (P1 a e 0 Ea ltac:(lia)). replace (e * 1 + 0) with e in P1 by lia. rewrite P1. replace (a * 1 + 0) with a by lia. rewrite zget_map, Ea. cbn [bind]. reflexivity.
  - specialize (P2 e 0 Re I ltac:(lia)). replace (e * 1 + 0) with e in P2 by lia. rewrite P2. f_equal. symmetry. destruct (Z.eq_dec (encA B e) 0) as [Q|Q]; [exact Q|]. exfalso. apply I, C; [exact Re|apply HB, Q].
Qed.
Lemma next {A} (x : A) l i : 0 <= i -> zget (x :: l) (i + 1) = zget l i.
Proof. intros H. unfold zget. destruct (Z.ltb_spec (i + 1) 0); [lia|]. destruct (Z.ltb_spec i 0); [lia|]. replace (Z.to_nat (i + 1)) with (S (Z.to_nat i)) by lia. reflexivity. Qed.
Lemma other_dirs ok A cands : filter_dirs (map (encA A) cands) (keep_dirs ok cands) = Ok (map (encA (fun e i => andb (A e i) (ok e i))) cands).
Proof.
  unfold filter_dirs. replace (zlen (map (encA A) cands)) with (zlen cands) by (unfold zlen; rewrite map_length; reflexivity). apply over_cands. intros cand e E. rewrite (at_cand A _ _ _ E). cbn [bind foldM].
  assert (forall i, i = 0 \/ i = 1 -> zget (keep_dirs ok cands) (cand * 2 + i) = Ok (if ok e i then 1 else 0)) as K.
  { intros i Hi. unfold keep_dirs. clear - E Hi. apply zget_ok in E as [H0 E]. assert (exists n, cand = Z.of_nat n) as (n & ->) by (exists (Z.to_nat cand); lia). rewrite Nat2Z.id in E. clear H0. revert n E. induction cands as [|x l IH]; intros [|n] E; try discriminate.
    - cbn in E. injection E as ->. destruct Hi as [->| ->]; reflexivity.
    - cbn [flat_map map app]. specialize (IH n E). replace (Z.of_nat (S n) * 2 + i) with (Z.of_nat n * 2 + i + 1 + 1) by lia. rewrite !next by lia. exact IH. }
  rewrite (K 0) by auto. cbn [bind]. rewrite (K 1) by auto. cbn [bind]. unfold encA. destruct (ok e 0), (ok e 1), (A e 0), (A e 1); reflexivity.
Qed.
Lemma narrower A ok e : encA (fun e i => andb (A e i) (ok e i)) e <> 0 -> encA A e <> 0.
Proof. unfold encA. destruct (A e 0), (A e 1), (ok e 0), (ok e 1); cbn; lia. Qed.
Lemma checked ne : forall checks A cands, holds ne A cands -> sharp A cands -> exists o, other_checks checks cands (map (encA A) cands) = Ok o /\
  let B := fun e i => andb (A e i) (forallb (fun ok => ok e i) checks) in
  match o with
  | None => forall e, 0 <= e < ne -> encA B e = 0
  | Some (cands', codes) => holds ne B cands' /\ sharp B cands' /\ codes = map (encA B) cands' /\ (checks <> [] -> cands' <> [])
  end.
Proof.
  induction checks as [|ok checks IH]; intros A cands H S; cbn [other_checks].
  - eexists. split; [reflexivity|]. cbv zeta. cbn [forallb]. assert (forall e, encA (fun e i => A e i && true) e = encA A e) as Q by (intros e; unfold encA; destruct (A e 0), (A e 1); reflexivity).
    split; [|split; [|split]]; [|intros e He; rewrite Q; apply S, He|apply map_ext; intros e; symmetry; apply Q|congruence]. destruct H as (N & R & C). split; [exact N|]. split; [exact R|]. intros e He He'. rewrite Q in He'. auto.
  - rewrite other_dirs. cbn [bind]. destruct (filtered ne A _ cands H (narrower A ok)) as (c' & E & H' & S'). rewrite E. cbn [bind fst snd]. assert (forall e, encA (fun e i => A e i && (ok e i && forallb (fun ok => ok e i) checks)) e = encA (fun e i => A e i && ok e i && forallb (fun ok => ok e i) checks) e) as Q by (intros e; unfold encA; rewrite !andb_assoc; reflexivity).
    cbn [forallb]. destruct (Z.eqb_spec (zlen c') 0) as [Z0|NZ].
    + exists None. split; [reflexivity|]. cbv zeta. intros e He. destruct (Z.eq_dec (encA (fun e i => A e i && (ok e i && forallb (fun ok => ok e i) checks)) e) 0) as [|X]; [assumption|]. exfalso. destruct H' as (_ & _ & C). assert (In e c') as I. { apply C; [exact He|]. rewrite Q in X. apply (narrower (fun e i => A e i && ok e i) (fun e i => forallb (fun ok => ok e i) checks) e X). }
      destruct c'; [destruct I|]. unfold zlen in Z0. cbn in Z0. lia.
    + destruct (IH (fun e i => A e i && ok e i) c' H' S') as (o & Eo & Ho). exists o. split; [exact Eo|]. cbv zeta in *. destruct o as [[c2 codes]|].
      * destruct Ho as ((N2 & R2 & C2) & S2 & -> & Hne). split; [split; [exact N2|]; split; [exact R2|]; intros e He; rewrite Q; auto|]. split; [intros e He; rewrite Q; apply S2, He|]. split; [apply map_ext; intros e; symmetry; apply Q|]. intros _. destruct checks as [|x checks].
        -- cbn [other_checks] in Eo. injection Eo as <- _. intros ->. apply NZ. reflexivity.
        -- apply Hne. discriminate.
      * intros e He. rewrite Q. apply Ho, He.
Qed.
