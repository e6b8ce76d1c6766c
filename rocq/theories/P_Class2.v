(** Proofs about deriving the classification of all dimensions, and classification by given entities. *)
From Coq Require Import Permutation.
From Verif Require Import Prelude M_Array P_Dist P_Dist3 P_Unique M_Map P_Map M_Template M_Align M_Adj S_Adj M_Graph S_Graph P_Graph S_Unique M_Match S_Match P_Match M_MeshAdj S_MeshAdj P_MeshAdj P_MeshAdj2 P_MeshAdj3 M_Build S_Build P_Build P_Box M_Class S_Class P_Class.
Local Open Scope Z_scope.

Definition dflt (T : topology) (tag : Z -> option (list Z)) (d v : Z) : list Z := match tag d with Some a => a | None => repeat v (Z.to_nat (t_nents T d)) end.
Fixpoint classes (T : topology) (t : ctags) (k : nat) : list Z * list Z :=
  let d := t_dim T - Z.of_nat k in
  let dims := dflt T (c_dims t) d (t_dim T) in let ids := dflt T (c_ids t) d (-1) in
  match k with
  | O => (dims, ids)
  | S k => let r := row_of T d false (fst (classes T t k)) (snd (classes T t k)) dims ids in (map fst r, map snd r)
  end.

Lemma repeat_zlen {A} (v : A) n : 0 <= n -> zlen (repeat v (Z.to_nat n)) = n.
Proof. intros H. unfold zlen. rewrite repeat_length. lia. Qed.
Lemma at_repeat v n i : 0 <= i < n -> at_ (repeat v (Z.to_nat n)) i = v.
Proof. intros H. unfold at_. apply nth_error_nth. rewrite nth_error_repeat; [reflexivity|lia]. Qed.

Section finalize.
Context (T : topology) (t : ctags) (V : valid_topology T) (W : whole_tags T t).
Lemma dflt_len d v v' : 0 <= d <= t_dim T -> zlen (dflt T (c_dims t) d v) = t_nents T d /\ zlen (dflt T (c_ids t) d v') = t_nents T d.
Proof.
  intros Hd. pose proof (v_nents T V d Hd). destruct (W d Hd) as [W1 W2]. unfold dflt. split.
  - destruct (c_dims t d) as [a|]; [apply W1; reflexivity|apply repeat_zlen; assumption].
  - destruct (c_ids t d) as [a|]; [apply W2; reflexivity|apply repeat_zlen; assumption].
Qed.
Lemma classes_len k : Z.of_nat k <= t_dim T -> zlen (fst (classes T t k)) = t_nents T (t_dim T - Z.of_nat k) /\ zlen (snd (classes T t k)) = t_nents T (t_dim T - Z.of_nat k).
Proof.
  intros Hk. pose proof (v_nents T V (t_dim T - Z.of_nat k) ltac:(lia)) as VN. destruct k as [|k].
  - cbn [classes fst snd]. apply dflt_len. lia.
  - cbn [classes fst snd]. unfold row_of. rewrite !zlen_map, zlen_zrange by lia. auto.
Qed.

Definition upto (k : nat) (tt : ctags) : Prop :=
  (forall j, (j < k)%nat -> Z.of_nat j <= t_dim T -> c_dims tt (t_dim T - Z.of_nat j) = Some (fst (classes T t j)) /\ c_ids tt (t_dim T - Z.of_nat j) = Some (snd (classes T t j))) /\
  (forall d, 0 <= d <= t_dim T - Z.of_nat k -> c_dims tt d = c_dims t d /\ c_ids tt d = c_ids t d).

Lemma finalize_dims_ok fin c : (fin = true -> finishes T c) -> forall n k m tt, Z.of_nat k + Z.of_nat n = t_dim T + 1 -> ready T m -> upto k tt ->
  let ds := map (fun j => t_dim T - Z.of_nat j) (seq k n) in
  good fin (finalize_dims c m tt ds) /\ forall r, finalize_dims c m tt ds = Ok (Some r) -> ready T (fst r) /\ upto (k + n) (snd r).
Proof.
  intros Hfin. induction n as [|n IH]; intros k m tt Hk R U ds.
  - subst ds. cbn [seq map finalize_dims]. split; [apply good_ok|]. intros r E. injection E as <-. cbn [fst snd]. rewrite Nat.add_0_r. auto.
  - subst ds. cbn [seq map finalize_dims]. pose proof U as [U1 U2]. pose proof (i_dim T m (proj1 R)) as ID. set (d := t_dim T - Z.of_nat k) in *.
    assert (0 <= d <= t_dim T) as Hd by lia. destruct (U2 d ltac:(lia)) as [Ud Ui]. pose proof (ready_nents T m d R Hd) as RN. pose proof (v_nents T V d Hd) as VN.
    assert (copy_or_default m (c_dims tt) d (a_dim m) = Ok (dflt T (c_dims t) d (t_dim T))) as ->.
    { unfold copy_or_default, dflt. rewrite Ud, RN, ID. destruct (c_dims t d); [reflexivity|]. unfold filled. destruct (Z.ltb_spec (t_nents T d) 0); [lia|reflexivity]. }
    assert (copy_or_default m (c_ids tt) d (-1) = Ok (dflt T (c_ids t) d (-1))) as ->.
    { unfold copy_or_default, dflt. rewrite Ui, RN. destruct (c_ids t d); [reflexivity|]. unfold filled. destruct (Z.ltb_spec (t_nents T d) 0); [lia|reflexivity]. }
    cbn [bind]. destruct (dflt_len d (t_dim T) (-1) Hd) as [D1 D2]. destruct (classes_len k ltac:(lia)) as [C1 C2]. fold d in C1, C2.
    set (step := if d <? a_dim m then _ else _).
    assert (good fin step /\ forall r, step = Ok (Some r) -> ready T (fst r) /\ snd r = classes T t k) as [GS KS].
    { subst step. rewrite ID. destruct k as [|k].
      - assert (d = t_dim T) as E by (unfold d; cbn; lia). clearbody d. subst d. rewrite Z.ltb_irrefl. split; [apply good_ok|]. intros r E. injection E as <-. cbn [fst snd classes]. change (Z.of_nat 0) with 0. rewrite Z.sub_0_r. auto.
      - destruct (Z.ltb_spec d (t_dim T)) as [Hlt|]; [|lia]. destruct (U1 k ltac:(lia) ltac:(lia)) as [E1 E2]. replace (t_dim T - Z.of_nat k) with (d + 1) in E1, E2 by lia.
        destruct (classes_len k ltac:(lia)) as [C3 C4]. replace (t_dim T - Z.of_nat k) with (d + 1) in C3, C4 by lia.
        destruct (project_ok T fin c m tt d (dflt T (c_dims t) d (t_dim T)) (dflt T (c_ids t) d (-1)) false _ _ V Hfin R ltac:(lia) E1 E2 C3 C4 D1 D2) as [G K]. split; [exact G|].
        intros r Er. destruct (K r Er) as [R' E]. split; [exact R'|]. rewrite E. reflexivity. }
    assert (forall r, step = Ok (Some r) -> exists t1, add_class (fst r) tt d (fst (snd r)) (snd (snd r)) = Ok t1 /\ upto (S k) t1) as KA.
    { intros r Er. destruct (KS r Er) as [R' E]. rewrite E. unfold add_class. rewrite (ready_nents T (fst r) d R' Hd), C1, C2, Z.eqb_refl. cbn [check bind]. eexists. split; [reflexivity|]. split; cbn [c_dims c_ids].
      - intros j Hj Hj'. destruct (Z.eqb_spec (t_dim T - Z.of_nat j) d) as [Ej|Nj].
        + assert (j = k) as -> by lia. auto.
        + apply U1; lia.
      - intros x Hx. destruct (Z.eqb_spec x d); [lia|]. apply U2. lia. }
    split.
    + apply good_bindo; [exact GS|]. intros r Er. destruct (KA r Er) as (t1 & E1 & U'). rewrite E1. cbn [bind]. destruct (IH (S k) (fst r) t1 ltac:(lia) (proj1 (KS r Er)) U') as [G _]. exact G.
    + intros r' E. apply bindo_some in E as (r & Er & E). destruct (KA r Er) as (t1 & E1 & U'). rewrite E1 in E. cbn [bind] in E. destruct (IH (S k) (fst r) t1 ltac:(lia) (proj1 (KS r Er)) U') as [_ K].
      replace (k + S n)%nat with (S k + n)%nat by lia. apply K, E.
Qed.

Lemma finalize_ok fin c m : (fin = true -> finishes T c) -> ready T m -> good fin (finalize_classification c m t) /\
  forall r, finalize_classification c m t = Ok (Some r) -> ready T (fst r) /\ (forall k, Z.of_nat k <= t_dim T -> c_dims (snd r) (t_dim T - Z.of_nat k) = Some (fst (classes T t k)) /\
    c_ids (snd r) (t_dim T - Z.of_nat k) = if has_any_ids m t then Some (snd (classes T t k)) else None).
Proof.
  intros Hfin R. pose proof (v_dim T V) as HD. pose proof (i_dim T m (proj1 R)) as ID.
  assert (rev (zrange (a_dim m + 1)) = map (fun j => t_dim T - Z.of_nat j) (seq 0 (Z.to_nat (t_dim T + 1)))) as E.
  { rewrite ID. assert (t_dim T = 1 \/ t_dim T = 2 \/ t_dim T = 3) as [->|[->| ->]] by lia; reflexivity. }
  destruct (finalize_dims_ok fin c Hfin (Z.to_nat (t_dim T + 1)) 0 m t ltac:(lia) R) as [G K]; [split; [lia|intros; auto]|]. unfold finalize_classification. rewrite E. split.
  - apply good_bindo; [exact G|]. intros. apply good_ok.
  - intros r Er. apply bindo_some in Er as (a & Ea & Er). destruct (K a Ea) as [R' [U _]]. injection Er as <-. cbn [fst snd]. split; [exact R'|]. intros k Hk. destruct (U k ltac:(lia) Hk) as [U1 U2].
    destruct (has_any_ids m t); cbn [c_dims c_ids]; auto.
Qed.

(** ** What the arrays say *)
Definition full (tt : ctags) : Prop := forall k, Z.of_nat k <= t_dim T -> c_dims tt (t_dim T - Z.of_nat k) = Some (fst (classes T t k)) /\ c_ids tt (t_dim T - Z.of_nat k) = Some (snd (classes T t k)).
Lemma full_at tt d : full tt -> 0 <= d <= t_dim T -> c_dims tt d = Some (fst (classes T t (Z.to_nat (t_dim T - d)))) /\ c_ids tt d = Some (snd (classes T t (Z.to_nat (t_dim T - d)))).
Proof. intros F Hd. specialize (F (Z.to_nat (t_dim T - d)) ltac:(lia)). replace (t_dim T - Z.of_nat (Z.to_nat (t_dim T - d))) with d in F by lia. exact F. Qed.
Lemma class_at tt d e c : full tt -> 0 <= d <= t_dim T -> 0 <= e < t_nents T d ->
  (has_class tt d e c <-> c = (at_ (fst (classes T t (Z.to_nat (t_dim T - d)))) e, at_ (snd (classes T t (Z.to_nat (t_dim T - d)))) e)).
Proof.
  intros F Hd He. destruct (full_at tt d F Hd) as [E1 E2]. destruct (classes_len (Z.to_nat (t_dim T - d)) ltac:(lia)) as [C1 C2]. replace (t_dim T - Z.of_nat (Z.to_nat (t_dim T - d))) with d in C1, C2 by lia. split.
  - intros (dims & ids & A1 & A2 & A3 & A4). destruct c as [x y]. cbn [fst snd] in *. apply get_at in A3. apply get_at in A4. congruence.
  - intros ->. eexists _, _. split; [exact E1|]. split; [exact E2|]. cbn [fst snd]. rewrite !at_get by lia. auto.
Qed.
Lemma given_at d e c : 0 <= d <= t_dim T -> 0 <= e < t_nents T d ->
  (given_class T t d e c <-> c = (at_ (dflt T (c_dims t) d (t_dim T)) e, at_ (dflt T (c_ids t) d (-1)) e)).
Proof.
  intros Hd He. destruct c as [x y]. destruct (W d Hd) as [W1 W2]. unfold given_class, dflt. cbn [fst snd]. split.
  - intros [A B]. f_equal.
    + destruct (c_dims t d); [apply get_at, A|]. rewrite at_repeat by lia. exact A.
    + destruct (c_ids t d); [apply get_at, B|]. rewrite at_repeat by lia. exact B.
  - intros E. injection E as -> ->. split.
    + destruct (c_dims t d) as [a|]; [apply at_get; rewrite (W1 a eq_refl); exact He|apply at_repeat, He].
    + destruct (c_ids t d) as [a|]; [apply at_get; rewrite (W2 a eq_refl); exact He|apply at_repeat, He].
Qed.
Lemma at_map {A} (f : A -> Z) l i x : zget l i = Ok x -> at_ (map f l) i = f x.
Proof. intros E. symmetry. apply get_at. rewrite zget_map, E. reflexivity. Qed.
Lemma below_at k e : Z.of_nat (S k) <= t_dim T -> let d := t_dim T - Z.of_nat (S k) in 0 <= e < t_nents T d ->
  (at_ (fst (classes T t (S k))) e, at_ (snd (classes T t (S k))) e) =
  one d false (fst (classes T t k)) (snd (classes T t k)) (above T d e) (at_ (dflt T (c_dims t) d (t_dim T)) e, at_ (dflt T (c_ids t) d (-1)) e).
Proof.
  intros Hk d He. cbn [classes fst snd]. fold d. unfold row_of. rewrite !(at_map _ _ e (one d false (fst (classes T t k)) (snd (classes T t k)) (above T d e) (at_ (dflt T (c_dims t) d (t_dim T)) e, at_ (dflt T (c_ids t) d (-1)) e))).
  - symmetry. apply surjective_pairing.
  - rewrite zget_map, zget_zrange by exact He. reflexivity.
  - rewrite zget_map, zget_zrange by exact He. reflexivity.
Qed.
Lemma highs_at tt d e highs : full tt -> 0 <= d < t_dim T -> Forall2 (has_class tt (d + 1)) (above T d e) highs ->
  highs = highs_of (fst (classes T t (Z.to_nat (t_dim T - (d + 1))))) (snd (classes T t (Z.to_nat (t_dim T - (d + 1))))) (above T d e).
Proof.
  intros F Hd H. pose proof (above_range T d e V Hd) as AR. revert AR. induction H as [|h c hs cs Hc _ IH]; intros AR; [reflexivity|]. inversion AR as [|? ? Hh AR']; subst. unfold highs_of in *. cbn [map]. rewrite <- IH by exact AR'.
  f_equal. apply (class_at tt (d + 1) h c F ltac:(lia) Hh). exact Hc.
Qed.
Lemma full_highs tt d e : full tt -> 0 <= d < t_dim T ->
  Forall2 (has_class tt (d + 1)) (above T d e) (highs_of (fst (classes T t (Z.to_nat (t_dim T - (d + 1))))) (snd (classes T t (Z.to_nat (t_dim T - (d + 1))))) (above T d e)).
Proof.
  intros F Hd. pose proof (above_range T d e V Hd) as AR. unfold highs_of. induction AR as [|h hs Hh _ IH]; cbn [map]; constructor; [|exact IH]. apply (class_at tt (d + 1) h _ F ltac:(lia) Hh). reflexivity.
Qed.
Lemma full_derived tt : full tt -> derived T t tt.
Proof.
  intros F. pose proof (v_dim T V) as HD. split; [|split].
  - intros d e Hd He. eexists. apply (class_at tt d e _ F Hd He). reflexivity.
  - intros e c Hg He. apply (class_at tt (t_dim T) e c F ltac:(lia) He). apply (given_at (t_dim T) e c ltac:(lia) He) in Hg. rewrite Hg. rewrite Z.sub_diag. cbn [Z.to_nat classes fst snd]. change (Z.of_nat 0) with 0. rewrite Z.sub_0_r. reflexivity.
  - intros d e given highs c Hd He Hg HH Hc HU. apply (given_at d e given ltac:(lia) He) in Hg. apply (class_at tt d e c F ltac:(lia) He) in Hc. apply (highs_at tt d e highs F Hd) in HH.
    replace (Z.to_nat (t_dim T - d)) with (S (Z.to_nat (t_dim T - (d + 1)))) in Hc by lia. set (k := Z.to_nat (t_dim T - (d + 1))) in *. assert (t_dim T - Z.of_nat (S k) = d) as Ed by lia.
    pose proof (below_at k e ltac:(lia)) as B. cbv zeta in B. rewrite Ed in B. specialize (B He). rewrite Hc, B. subst highs given. apply one_inferred. right. exact HU.
Qed.
End finalize.
