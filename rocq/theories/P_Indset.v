(** Proofs about the independent set. *)
From Verif Require Import Prelude M_Array M_Sort S_Map P_Map M_Dist S_Dist P_Dist P_Dist2 M_Owners S_Owners P_Owners P_Owners2 P_Fan M_Graph S_Graph P_Graph P_ArrayOps M_Indset S_Indset.
Local Open Scope Z_scope.

(** ** The graph alone *)
Section graph.
Variables (nodes : list Z) (q : Z -> Z) (cand : Z -> bool) (nbrs : Z -> list Z).

Definition beatsb (h g : Z) : bool := (q g <? q h) || ((q g =? q h) && (g <? h)).
Lemma beatsb_spec h g : beatsb h g = true <-> beats q h g.
Proof. unfold beatsb, beats. rewrite orb_true_iff, andb_true_iff, !Z.ltb_lt, Z.eqb_eq. tauto. Qed.
Lemma beats_total g h : g <> h -> beats q g h \/ beats q h g.
Proof. unfold beats. lia. Qed.
Lemma beats_asym g h : beats q g h -> ~ beats q h g.
Proof. unfold beats. lia. Qed.
Lemma beats_trans a b c : beats q a b -> beats q b c -> beats q a c.
Proof. unfold beats. lia. Qed.

Lemma fewer_above h g : beats q h g -> forall l, In h l -> (length (filter (fun x => beatsb x h) l) < length (filter (fun x => beatsb x g) l))%nat.
Proof.
  intros Hb. assert (Le : forall l, (length (filter (fun x => beatsb x h) l) <= length (filter (fun x => beatsb x g) l))%nat).
  { induction l as [|y l IHl]; [cbn; lia|]. cbn [filter]. destruct (beatsb y h) eqn:E1.
    - assert (E2 : beatsb y g = true) by (apply beatsb_spec; eapply beats_trans; [apply beatsb_spec; exact E1|exact Hb]). rewrite E2. cbn [length]. lia.
    - destruct (beatsb y g); cbn [length]; lia. }
  induction l as [|x l IHl]; intros I; [destruct I|]. cbn [filter]. specialize (Le l). destruct I as [->|I].
  - assert (E1 : beatsb h h = false). { destruct (beatsb h h) eqn:E; [|reflexivity]. apply beatsb_spec in E. unfold beats in E. lia. }
    assert (E2 : beatsb h g = true) by (apply beatsb_spec; exact Hb). rewrite E1, E2. cbn [length]. lia.
  - specialize (IHl I). destruct (beatsb x h) eqn:E1.
    + assert (E2 : beatsb x g = true) by (apply beatsb_spec; eapply beats_trans; [apply beatsb_spec; exact E1|exact Hb]). rewrite E2. cbn [length]. lia.
    + destruct (beatsb x g); cbn [length]; lia.
Qed.

(** the best of those satisfying [p] *)
Lemma best_of (p : Z -> bool) l : (exists g, In g l /\ p g = true) -> exists g, In g l /\ p g = true /\ forall h, In h l -> p h = true -> h = g \/ beats q g h.
Proof.
  induction l as [|x l IH]; intros (g & G & P); [destruct G|].
  destruct (existsb p l) eqn:E.
  - apply existsb_exists in E as (y & Y1 & Y2). destruct IH as (b & B1 & B2 & B3); [eauto|].
    destruct (p x) eqn:Px.
    + destruct (Z.eq_dec x b) as [->|Ne].
      * exists b. split; [right; exact B1|]. split; [exact B2|]. intros h [<-|Hh] Hp; auto.
      * destruct (beats_total x b Ne) as [Xb|Bx].
        -- exists x. split; [left; reflexivity|]. split; [exact Px|]. intros h [<-|Hh] Hp; [auto|]. right. destruct (B3 h Hh Hp) as [->|Hb]; [exact Xb|]. eapply beats_trans; eauto.
        -- exists b. split; [right; exact B1|]. split; [exact B2|]. intros h [<-|Hh] Hp; auto.
    + exists b. split; [right; exact B1|]. split; [exact B2|]. intros h [<-|Hh] Hp; [congruence|auto].
  - assert (N : forall h, In h l -> p h = false). { intros h Hh. destruct (p h) eqn:Ph; auto. rewrite <- E. symmetry. apply existsb_exists. eauto. }
    destruct G as [->|G]; [|rewrite (N g G) in P; discriminate].
    exists g. split; [left; reflexivity|]. split; [exact P|]. intros h [<-|Hh] Hp; [auto|]. rewrite (N h Hh) in Hp. discriminate.
Qed.

Definition start (g : Z) : Z := if cand g then 2 else 0.
Definition step (f : Z -> Z) (g : Z) : Z :=
  if f g =? 2 then
    if existsb (fun h => f h =? 1) (nbrs g) then 0
    else if forallb (fun h => (f h =? 0) || beatsb g h) (nbrs g) then 1 else 2
  else f g.

Hypothesis Hm : mutual nodes nbrs.

Definition fine (f : Z -> Z) : Prop :=
  (forall g, f g = 0 \/ f g = 1 \/ f g = 2) /\
  (forall g, In g nodes -> f g <> 0 -> cand g = true) /\
  (forall g, In g nodes -> f g = 0 -> cand g = false \/ exists h, In h (nbrs g) /\ f h = 1 /\ beats q h g) /\
  (forall g h, In g nodes -> f g = 1 -> In h (nbrs g) -> f h <> 0 -> beats q g h).

Lemma start_fine : fine start.
Proof.
  unfold start. repeat split.
  - intros g. destruct (cand g); lia.
  - intros g _ H. destruct (cand g); congruence.
  - intros g _ H. destruct (cand g); [discriminate|]. left. reflexivity.
  - intros g h _ H. destruct (cand g); discriminate.
Qed.
Lemma step_keeps f g : f g <> 2 -> step f g = f g.
Proof. intros H. unfold step. destruct (Z.eqb_spec (f g) 2); congruence. Qed.
Lemma step_in f g : step f g = 1 -> f g = 1 \/ (f g = 2 /\ forall h, In h (nbrs g) -> f h <> 1 /\ (f h = 0 \/ beats q g h)).
Proof.
  unfold step. destruct (Z.eqb_spec (f g) 2) as [E|E]; [|auto]. destruct (existsb _ _) eqn:X; [discriminate|].
  destruct (forallb _ _) eqn:F; [|discriminate]. intros _. right. split; [exact E|]. intros h Hh. split.
  - intros E1. enough (existsb (fun h => f h =? 1) (nbrs g) = true) by congruence. apply existsb_exists. exists h. rewrite E1. auto.
  - rewrite forallb_forall in F. specialize (F h Hh). rewrite orb_true_iff, Z.eqb_eq, beatsb_spec in F. exact F.
Qed.
Lemma step_out f g : step f g = 0 -> f g = 0 \/ (f g = 2 /\ exists h, In h (nbrs g) /\ f h = 1).
Proof.
  unfold step. destruct (Z.eqb_spec (f g) 2) as [E|E]; [|auto]. destruct (existsb _ _) eqn:X.
  - intros _. right. split; [exact E|]. apply existsb_exists in X as (h & H1 & H2). apply Z.eqb_eq in H2. eauto.
  - destruct (forallb _ _); discriminate.
Qed.
Lemma step_unknown f g : step f g = 2 -> f g = 2.
Proof. unfold step. destruct (Z.eqb_spec (f g) 2) as [E|E]; auto. Qed.
Lemma step_fine f : fine f -> fine (step f).
Proof.
  intros (R & C & O & B). repeat split.
  - intros g. unfold step. destruct (f g =? 2); [|auto]. destruct (existsb _ _); [auto|]. destruct (forallb _ _); auto.
  - intros g Hg Hs. apply C; [exact Hg|]. intros E. apply Hs. rewrite step_keeps by lia. exact E.
  - intros g Hg Hs. destruct (step_out f g Hs) as [E|(E & h & H1 & H2)].
    + destruct (O g Hg E) as [Hc|(h & H1 & H2 & H3)]; [auto|]. right. exists h. rewrite step_keeps by lia. auto.
    + right. exists h. split; [exact H1|]. split; [rewrite step_keeps by lia; exact H2|]. destruct (Hm g h Hg H1) as (Hh & Hgh & _).
      apply (B h g Hh H2 Hgh). lia.
  - intros g h Hg Hs Hh Hz. assert (Fz : f h <> 0). { intros E. apply Hz. rewrite step_keeps by lia. exact E. }
    destruct (step_in f g Hs) as [E|(E & K)]; [apply (B g h Hg E Hh Fz)|]. destruct (K h Hh) as [_ [K2|K2]]; [congruence|exact K2].
Qed.

Definition unknowns (f : Z -> Z) : nat := length (filter (fun g => f g =? 2) nodes).
Lemma step_progress f : fine f -> (exists g, In g nodes /\ f g = 2) -> (unknowns (step f) < unknowns f)%nat.
Proof.
  intros (R & C & O & B) (g0 & G0 & E0).
  destruct (best_of (fun g => f g =? 2) nodes) as (g & G1 & G2 & G3). { exists g0. rewrite E0. auto. }
  apply Z.eqb_eq in G2.
  assert (D : step f g <> 2).
  { unfold step. rewrite G2, Z.eqb_refl. destruct (existsb _ _) eqn:X; [discriminate|]. destruct (forallb _ _) eqn:F; [discriminate|].
    exfalso. enough (forallb (fun h => (f h =? 0) || beatsb g h) (nbrs g) = true) by congruence. apply forallb_forall. intros h Hh.
    rewrite orb_true_iff, Z.eqb_eq, beatsb_spec. destruct (Hm g h G1 Hh) as (Hn & _ & Hd).
    destruct (R h) as [E|[E|E]]; [auto| |].
    - enough (existsb (fun h => f h =? 1) (nbrs g) = true) by congruence. apply existsb_exists. exists h. rewrite E. auto.
    - destruct (G3 h Hn) as [K|K]; [rewrite E; reflexivity|congruence|auto]. }
  unfold unknowns. clear - G1 G2 D. induction nodes as [|x l IH]; [destruct G1|]. cbn [filter].
  assert (Le : (length (filter (fun g => (step f g =? 2)%Z) l) <= length (filter (fun g => (f g =? 2)%Z) l))%nat).
  { clear. induction l as [|y l IH]; [cbn; lia|]. cbn [filter]. destruct (Z.eqb_spec (step f y) 2) as [E|E].
    - rewrite (step_unknown f y E), Z.eqb_refl. cbn [length]. lia.
    - destruct (f y =? 2); cbn [length]; lia. }
  destruct G1 as [->|G1].
  - rewrite G2, Z.eqb_refl. destruct (Z.eqb_spec (step f g) 2) as [E|E]; [congruence|]. cbn [length]. lia.
  - specialize (IH G1). destruct (Z.eqb_spec (step f x) 2) as [E|E].
    + rewrite (step_unknown f x E), Z.eqb_refl. cbn [length]. lia.
    + destruct (f x =? 2); cbn [length]; lia.
Qed.

Fixpoint after (k : nat) : Z -> Z := match k with O => start | S k => step (after k) end.
Lemma after_fine k : fine (after k).
Proof. induction k as [|k IH]; [exact start_fine|apply step_fine; exact IH]. Qed.
Lemma after_unknowns k : (unknowns (after k) <= length nodes - k)%nat.
Proof.
  assert (Z0 : forall f, unknowns f = O \/ exists g, In g nodes /\ f g = 2).
  { intros f. unfold unknowns. destruct (filter _ _) as [|g l] eqn:E; [auto|]. right. exists g. assert (I : In g (filter (fun g => f g =? 2) nodes)) by (rewrite E; left; reflexivity).
    apply filter_In in I as [I1 I2]. apply Z.eqb_eq in I2. auto. }
  induction k as [|k IH].
  - unfold unknowns. cbn. rewrite Nat.sub_0_r. induction nodes as [|x l IHl]; [cbn; lia|]. cbn [filter length]. destruct (start x =? 2); cbn [length]; [|]; 
      assert ((length (filter (fun g => (start g =? 2)%Z) l) <= length l)%nat) by (clear; induction l as [|y l IH]; cbn [filter length]; [lia|destruct (start y =? 2); cbn [length]; lia]); lia.
  - cbn [after]. destruct (Z0 (after k)) as [E|E].
    + assert (unknowns (step (after k)) = O); [|lia]. destruct (Z0 (step (after k))) as [E'|(g & G & G2)]; [exact E'|]. apply step_unknown in G2.
      exfalso. unfold unknowns in E. apply length_zero_iff_nil in E. assert (I : In g (filter (fun g => after k g =? 2) nodes)) by (apply filter_In; rewrite G2; auto). rewrite E in I. destruct I.
    + pose proof (step_progress _ (after_fine k) E). lia.
Qed.
Lemma after_decided k g : (length nodes <= k)%nat -> In g nodes -> after k g <> 2.
Proof.
  intros Hk G E. pose proof (after_unknowns k) as U. assert (unknowns (after k) = O) as U0 by lia. unfold unknowns in U0. apply length_zero_iff_nil in U0.
  assert (I : In g (filter (fun g => after k g =? 2) nodes)) by (apply filter_In; rewrite E; auto). rewrite U0 in I. destruct I.
Qed.
Lemma after_stable k m g : (k <= m)%nat -> after k g <> 2 -> after m g = after k g.
Proof. induction 1 as [|m Hm' IH]; intros D; [reflexivity|]. cbn [after]. rewrite step_keeps; [auto|]. rewrite (IH D). exact D. Qed.

Definition result (g : Z) : bool := after (length nodes) g =? 1.
Lemma result_greedy : greedy nodes q cand nbrs result.
Proof.
  intros g G. unfold result. pose proof (after_fine (length nodes)) as (R & C & O & B). set (f := after (length nodes)) in *.
  assert (D : forall g, In g nodes -> f g <> 2) by (intros; apply after_decided; auto). split.
  - intros E. apply Z.eqb_eq in E. split; [apply C; [exact G|lia]|]. intros h Hh Hb. apply Z.eqb_neq. intros E1.
    apply (beats_asym g h); [|exact Hb]. apply (B g h G E Hh). lia.
  - intros (Hc & K). apply Z.eqb_eq. destruct (R g) as [E|[E|E]]; [|exact E|exfalso; eapply D; eauto].
    destruct (O g G E) as [Hc'|(h & H1 & H2 & H3)]; [congruence|]. specialize (K h H1 H3). rewrite H2 in K. discriminate.
Qed.
Lemma greedy_sets c : greedy nodes q cand nbrs c -> independent nodes cand nbrs c /\ maximal nodes cand nbrs c.
Proof.
  intros Gr. split.
  - intros g G E. destruct (proj1 (Gr g G) E) as (Hc & K). split; [exact Hc|]. intros h Hh. destruct (Hm g h G Hh) as (Hn & Hgh & Hd).
    destruct (beats_total g h (fun e => Hd (eq_sym e))) as [Hb|Hb]; [|apply K; auto].
    destruct (c h) eqn:Eh; [|reflexivity]. destruct (proj1 (Gr h Hn) Eh) as (_ & K'). rewrite (K' g Hgh Hb) in E. discriminate.
  - intros g G Hc E. destruct (existsb (fun h => c h) (nbrs g)) eqn:X.
    + apply existsb_exists in X as (h & H1 & H2). eauto.
    + exfalso. enough (c g = true) by congruence. apply Gr; [exact G|]. split; [exact Hc|]. intros h Hh _.
      destruct (c h) eqn:Eh; [|reflexivity]. rewrite <- X. symmetry. apply existsb_exists. eauto.
Qed.
(** by induction on how many nodes beat [g] *)
Lemma greedy_unique c c' : greedy nodes q cand nbrs c -> greedy nodes q cand nbrs c' -> forall g, In g nodes -> c g = c' g.
Proof.
  intros G1 G2. enough (W : forall n g, In g nodes -> (length (filter (fun h => beatsb h g) nodes) < n)%nat -> c g = c' g) by (intros g Hg; eapply W; [exact Hg|apply Nat.lt_succ_diag_r]).
  induction n as [|n IH]; intros g Hg Hn; [lia|].
  assert (Eq : forall h, In h (nbrs g) -> beats q h g -> c h = c' h).
  { intros h Hh Hb. destruct (Hm g h Hg Hh) as (Hn' & _ & _). apply IH; [exact Hn'|]. apply Nat.lt_le_trans with (length (filter (fun h => beatsb h g) nodes)); [|lia].
    apply fewer_above; assumption. }
  apply Bool.eq_true_iff_eq. rewrite (G1 g Hg), (G2 g Hg). split; intros (Hc & K); (split; [exact Hc|]); intros h Hh Hb; [rewrite <- (Eq h Hh Hb)|rewrite (Eq h Hh Hb)]; auto.
Qed.
End graph.

(** ** The code *)
Lemma chosen_loop adj old (fv : Z -> Z) : forall js us, mapM (zget adj) js = Ok us -> (forall u, In u us -> zget old u = Ok (fv u)) ->
  next_to_chosen adj old js = Ok (existsb (fun u => fv u =? 1) us).
Proof.
  induction js as [|j js IH]; intros us M H; cbn [mapM] in M; [inversion M; reflexivity|].
  apply bind_ok in M as (u & U & M). apply bind_ok in M as (us' & M & E). inversion E; subst us. cbn [next_to_chosen existsb]. rewrite U. cbn [bind].
  rewrite (H u (or_introl eq_refl)). cbn [bind]. unfold IN. destruct (fv u =? 1); [reflexivity|]. cbn [orb]. apply IH; [exact M|]. intros w Hw. apply H. right. exact Hw.
Qed.
Lemma maximum_loop compare adj old v (fv : Z -> Z) (cb : Z -> bool) : forall js us, mapM (zget adj) js = Ok us -> (forall u, In u us -> zget old u = Ok (fv u)) ->
  (forall u, In u us -> compare u v = Ok (cb u)) -> local_maximum compare adj old v js = Ok (forallb (fun u => (fv u =? 0) || cb u) us).
Proof.
  induction js as [|j js IH]; intros us M H Hc; cbn [mapM] in M; [inversion M; reflexivity|].
  apply bind_ok in M as (u & U & M). apply bind_ok in M as (us' & M & E). inversion E; subst us. cbn [local_maximum forallb]. rewrite U. cbn [bind].
  rewrite (H u (or_introl eq_refl)). cbn [bind]. unfold NOT_IN. destruct (fv u =? 0); cbn [orb andb].
  - apply IH; [exact M| |]; intros w Hw; [apply H|apply Hc]; right; exact Hw.
  - rewrite (Hc u (or_introl eq_refl)). cbn [bind]. destruct (cb u); cbn [andb]; [|reflexivity].
    apply IH; [exact M| |]; intros w Hw; [apply H|apply Hc]; right; exact Hw.
Qed.
Lemma same_set {A} (p : Z -> bool) (m : A -> Z) l us : (forall h, In h l <-> exists u, In u us /\ m u = h) ->
  existsb p l = existsb (fun u => p (m u)) us /\ forallb p l = forallb (fun u => p (m u)) us.
Proof.
  intros H. split; apply Bool.eq_true_iff_eq.
  - rewrite !existsb_exists. split.
    + intros (h & H1 & H2). apply H in H1 as (u & U1 & <-). eauto.
    + intros (u & U1 & U2). exists (m u). split; [apply H; eauto|exact U2].
  - rewrite !forallb_forall. split.
    + intros K u Hu. apply K. apply H. eauto.
    + intros K h Hh. apply H in Hh as (u & U1 & <-). apply K. exact U1.
Qed.

Section world.
Variables (nodes : list Z) (q : Z -> Z) (cand : Z -> bool) (nbrs : Z -> list Z) (inv : Z -> list Z -> Z -> res (list Z * list Z)).
Variables (shared : bool) (oranks oidxs : list (list Z)) (graphs : list graph) (quality : list (list (option Z))) (global candidates : list (list Z)).
Hypothesis Hm : mutual nodes nbrs.
Hypothesis Hinv : inverter inv.
Hypothesis fits : zlen oranks <= i32_max + 1.
Hypothesis Hp : presents nodes q cand nbrs shared oranks oidxs graphs quality global candidates.

Definition shows (st : list (list Z)) (f : Z -> Z) : Prop :=
  data_per_item oranks st 1 /\ forall s i g, goes_to global s i g -> goes_to st s i (f g).

Definition row_value (f : Z -> Z) (g : Z) (gl us : list Z) : Z :=
  if f g =? 2 then
    if existsb (fun u => f (at_ gl u) =? 1) us then 0
    else if forallb (fun u => (f (at_ gl u) =? 0) || beatsb q g (at_ gl u)) us then 1 else 2
  else f g.

Lemma local_row s st f : shows st f -> 0 <= s < zlen oranks ->
  exists a gr ql gl old, zget oranks s = Ok a /\ zget graphs s = Ok gr /\ zget quality s = Ok ql /\ zget global s = Ok gl /\ zget st s = Ok old /\
  exists new, local_iteration (quality_compare ql gl) (a2ab gr) (ab2b gr) old = Ok new /\ zlen new = zlen a /\
  forall v, 0 <= v < zlen a -> exists us, targets gr v = Ok us /\ (forall u, In u us -> 0 <= u < zlen a) /\ zget new v = Ok (row_value f (at_ gl v) gl us).
Proof.
  intros [[Ls Ds] Sh] Bs. destruct Hp as (_ & L1 & L2 & [L3 C3] & _ & Hg & Hd & _).
  destruct (zget_in_range oranks s Bs) as [a Ha]. destruct (zget_in_range graphs s) as [gr Hgr]; [lia|]. destruct (zget_in_range quality s) as [ql Hql]; [lia|].
  destruct (zget_in_range global s) as [gl Hgl]; [lia|]. destruct (zget_in_range st s) as [old Hold]; [lia|].
  exists a, gr, ql, gl, old. repeat (split; [assumption|]).
  destruct (Hg s a gr Ha Hgr) as (Wf & Ln & Hin). pose proof (C3 s a gl Ha Hgl) as Lg. pose proof (Ds s a old Ha Hold) as Lo.
  assert (Gl : forall u, 0 <= u < zlen a -> goes_to global s u (at_ gl u)). { intros u Hu. exists gl. split; [exact Hgl|]. apply at_ok. lia. }
  assert (Old : forall u, 0 <= u < zlen a -> zget old u = Ok (f (at_ gl u))).
  { intros u Hu. destruct (Sh s u _ (Gl u Hu)) as (o' & O1 & O2). rewrite Hold in O1. inversion O1; subst o'. exact O2. }
  assert (Ql : forall u, 0 <= u < zlen a -> zget ql u = Ok (Some (q (at_ gl u)))).
  { intros u Hu. destruct (Hd s u _ (Gl u Hu)) as (_ & (q' & Q1 & Q2) & _). rewrite Hql in Q1. inversion Q1; subst q'. exact Q2. }
  assert (Cmp : forall u v, 0 <= u < zlen a -> 0 <= v < zlen a -> quality_compare ql gl u v = Ok (beatsb q (at_ gl v) (at_ gl u))).
  { intros u v Hu Hv. unfold quality_compare. rewrite (Ql v Hv), (Ql u Hu). cbn [bind]. unfold beatsb.
    destruct (Z.eqb_spec (q (at_ gl u)) (q (at_ gl v))) as [E|E]; cbn [negb andb].
    - rewrite !at_ok by lia. cbn [bind]. rewrite E, Z.ltb_irrefl. reflexivity.
    - rewrite orb_false_r. reflexivity. }
  unfold local_iteration. rewrite Ln. replace (zlen a + 1 - 1) with (zlen a) by lia.
  assert (Rows : forall v, 0 <= v < zlen a -> exists us, targets gr v = Ok us /\ (forall u, In u us -> 0 <= u < zlen a)).
  { intros v Hv. destruct (wf_targets gr v Wf) as [us Hus]; [unfold nnodes; lia|]. exists us. split; [exact Hus|]. intros u Hu.
    unfold targets in Hus. apply bind_ok in Hus as (lo & _ & Hus). apply bind_ok in Hus as (hi & _ & Hus). apply mapM_ok in Hus.
    apply Hin. clear - Hus Hu. induction Hus as [|x y l l' E F IH]; [destruct Hu|]. destruct Hu as [<-|Hu]; [eapply zget_In; eauto|auto]. }
  match goal with |- context [tabulate (zlen a) ?F] => set (body := F) end.
  assert (Body : forall v, 0 <= v < zlen a -> exists us, targets gr v = Ok us /\ (forall u, In u us -> 0 <= u < zlen a) /\ body v = Ok (row_value f (at_ gl v) gl us)).
  { intros v Hv. destruct (Rows v Hv) as (us & Hus & Hu). exists us. split; [exact Hus|]. split; [exact Hu|]. unfold body, row_value. rewrite (Old v Hv). cbn [bind]. unfold UNKNOWN.
    destruct (Z.eqb_spec (f (at_ gl v)) 2) as [E|E]; cbn [negb]; [|reflexivity].
    unfold targets in Hus. apply bind_ok in Hus as (lo & -> & Hus). cbn [bind]. apply bind_ok in Hus as (hi & -> & Hus). cbn [bind].
    rewrite (chosen_loop _ _ (fun u => f (at_ gl u)) _ us Hus) by (intros u Hi; apply Old; auto). cbn [bind].
    destruct (existsb _ us); [reflexivity|].
    rewrite (maximum_loop _ _ _ v (fun u => f (at_ gl u)) (fun u => beatsb q (at_ gl v) (at_ gl u)) _ us Hus); [|intros u Hi; apply Old; auto|intros u Hi; apply Cmp; auto].
    cbn [bind]. destruct (forallb _ us); [reflexivity|rewrite E; reflexivity]. }
  destruct (tabulate_rel (zlen a) body (fun v x => body v = Ok x)) as (new & En & Ln' & Gn); [apply zlen_nonneg|intros v Hv; destruct (Body v Hv) as (us & _ & _ & B); eauto|].
  exists new. split; [exact En|]. split; [exact Ln'|]. intros v Hv. destruct (Body v Hv) as (us & U1 & U2 & U3). exists us. split; [exact U1|]. split; [exact U2|].
  destruct (zget_in_range new v) as [x X]; [lia|]. pose proof (Gn v x X). congruence.
Qed.
Lemma global_at s i g : goes_to global s i g -> exists a t, zget oranks s = Ok a /\ zget a i = Ok t.
Proof.
  intros H. destruct Hp as (_ & _ & _ & C & _). destruct (goes_to_per_copy oranks global s i g C H) as (t & a & A1 & A2). eauto.
Qed.

Lemma iteration_step st f : shows st f -> (forall g, f g = 0 \/ f g = 1 \/ f g = 2) ->
  exists st', iteration inv shared oranks oidxs graphs quality global st = Ok st' /\ shows st' (step q nbrs f).
Proof.
  intros Sh R. pose proof Hp as (Own & L1 & L2 & C3 & C4 & Hg & Hd & Ho & Hn). unfold iteration.
  match goal with |- context [tabulate (zlen graphs) ?F] => set (body := F) end.
  destruct (tabulate_rel (zlen graphs) body (fun s new => exists a gr gl, zget oranks s = Ok a /\ zget graphs s = Ok gr /\ zget global s = Ok gl /\ zlen new = zlen a /\
    forall v, 0 <= v < zlen a -> exists us, targets gr v = Ok us /\ (forall u, In u us -> 0 <= u < zlen a) /\ zget new v = Ok (row_value f (at_ gl v) gl us))) as (local & El & Ll & Gl).
  { apply zlen_nonneg. }
  { intros s Hs. destruct (local_row s st f Sh) as (a & gr & ql & gl & old & A1 & A2 & A3 & A4 & A5 & new & N1 & N2 & N3); [lia|].
    exists new. split; [unfold body; rewrite A2, A3, A4, A5; exact N1|]. exists a, gr, gl. auto. }
  rewrite El. cbn [bind].
  assert (DL : data_per_item oranks local 1). { split; [lia|]. intros s a x Ha Hx. destruct (Gl s x Hx) as (a' & gr & gl & A1 & _ & _ & A4 & _). rewrite Ha in A1. inversion A1; subst a'. lia. }
  (** what an owner computes is the step of the graph *)
  assert (OL : forall t j g, goes_to oranks t j t -> goes_to global t j g -> goes_to local t j (step q nbrs f g)).
  { intros t j g Ot Gt. destruct Ot as (a & A1 & A2). pose proof (zget_bounds _ _ _ A1) as Bt. destruct (zget_in_range local t) as [new Hnew]; [lia|].
    destruct (Gl t new Hnew) as (a' & gr & gl & A1' & B1 & B2 & B3 & B4). rewrite A1 in A1'. inversion A1'; subst a'.
    destruct (B4 j (zget_bounds _ _ _ A2)) as (us & U1 & U2 & U3). exists new. split; [exact Hnew|]. rewrite U3. f_equal.
    pose proof (proj2 C3 _ _ _ A1 B2) as Lg.
    assert (Gj : at_ gl j = g). { destruct Gt as (gl' & G1 & G2). rewrite B2 in G1. inversion G1; subst gl'. unfold at_. rewrite G2. reflexivity. }
    rewrite Gj. unfold row_value, step. destruct (f g =? 2); [|reflexivity].
    assert (Set_ : forall h, In h (nbrs g) <-> exists u, In u us /\ at_ gl u = h).
    { intros h. rewrite (Hn t j g gr us (ex_intro _ a (conj A1 A2)) Gt B1 U1 h). split; intros (u & V1 & V2); exists u; (split; [exact V1|]).
      - destruct V2 as (gl' & G1 & G2). rewrite B2 in G1. inversion G1; subst gl'. unfold at_. rewrite G2. reflexivity.
      - exists gl. split; [exact B2|]. rewrite <- V2. apply at_ok. specialize (U2 u V1). lia. }
    destruct (same_set (fun h => f h =? 1) (at_ gl) (nbrs g) us Set_) as [-> _].
    destruct (same_set (fun h => (f h =? 0) || beatsb q g h) (at_ gl) (nbrs g) us Set_) as [_ ->]. reflexivity. }
  pose proof global_at as GA.
  destruct shared.
  - destruct (sync_agrees inv oranks oidxs Hinv fits Own local 1 ltac:(lia) DL) as (b & Eb & Db & Gb). exists b. split; [exact Eb|]. split; [exact Db|].
    intros s i g Hgi. destruct (GA s i g Hgi) as (a & t & A1 & A2). pose proof (zget_bounds _ _ _ A1) as Bs.
    destruct Own as ([Lx Cx] & Self & _). destruct (zget_in_range oidxs s) as [x Hx]; [lia|]. pose proof (Cx s a x A1 Hx) as Lxa. pose proof (zget_bounds _ _ _ A2) as Bi.
    destruct (zget_in_range x i) as [j Hj]; [lia|].
    assert (Oi : owner_is oranks oidxs s i t j) by (split; [exists a|exists x]; auto).
    pose proof (Self s i t j Oi) as St. pose proof (Ho eq_refl s i t j g Oi Hgi) as Gt.
    destruct (OL t j g St Gt) as (lt & T1 & T2). destruct (zget_in_range b s) as [y Hy]; [destruct Db; lia|].
    destruct (Gb s i t j lt y Oi T1 Hy 0 ltac:(lia)) as (v & V1 & V2). exists y. split; [exact Hy|].
    rewrite !Z.mul_1_r, !Z.add_0_r in *. congruence.
  - exists local. split; [reflexivity|]. split; [exact DL|]. intros s i g Hgi. destruct (GA s i g Hgi) as (a & t & A1 & A2).
    apply OL; [|exact Hgi]. pose proof (Own s i t (ex_intro _ a (conj A1 A2))) as ->. exists a. auto.
Qed.

Lemma max_state_spec st : (forall a x, In a st -> In x a -> x = 0 \/ x = 1 \/ x = 2) -> (max_state st = 2 <-> exists a, In a st /\ In 2 a).
Proof.
  intros R. unfold max_state. destruct (max_fold (map (fun a => fold_left Z.max a (-128)) st) (-128)) as (_ & M2 & M3). split.
  - intros E. rewrite E in M3. destruct M3 as [M3|M3]; [discriminate|]. apply in_map_iff in M3 as (a & Ea & Ia). exists a. split; [exact Ia|].
    destruct (max_fold a (-128)) as (_ & _ & [K|K]); rewrite Ea in K; [discriminate|exact K].
  - intros (a & Ia & I2). destruct (max_fold a (-128)) as (_ & K & _). specialize (K 2 I2).
    specialize (M2 _ (in_map _ _ _ Ia)). cbn beta in M2.
    destruct M3 as [M3|M3]; [lia|]. apply in_map_iff in M3 as (a' & Ea & Ia'). destruct (max_fold a' (-128)) as (_ & _ & [K'|K']).
    + lia.
    + destruct (R a' _ Ia' K'); lia.
Qed.

Lemma shows_covers st f a x : shows st f -> In a st -> In x a -> exists s i g, goes_to global s i g /\ goes_to st s i x /\ x = f g.
Proof.
  intros [[Ld Cd] Sh] Ia Ix. destruct Hp as (_ & _ & _ & [C1 C2] & _). apply In_zget in Ia as [s Hs]. apply In_zget in Ix as [i Hi].
  pose proof (zget_bounds _ _ _ Hs) as Bs. destruct (zget_in_range oranks s) as [b Hb]; [lia|]. destruct (zget_in_range global s) as [gl Hgl]; [lia|].
  pose proof (Cd _ _ _ Hb Hs). pose proof (C2 _ _ _ Hb Hgl). pose proof (zget_bounds _ _ _ Hi). destruct (zget_in_range gl i) as [g Hgi]; [lia|].
  assert (G : goes_to global s i g) by (exists gl; auto). exists s, i, g. split; [exact G|]. split; [exists a; auto|].
  destruct (Sh s i g G) as (a' & A1 & A2). congruence.
Qed.

Lemma loop_ends : forall m k st, shows st (after q cand nbrs k) -> (m + k = length nodes)%nat -> forall fuel, (m < fuel)%nat ->
  exists out, indset_loop fuel (iteration inv shared oranks oidxs graphs quality global) st = Ok out /\ shows out (after q cand nbrs (length nodes)).
Proof.
  induction m as [|m IH]; intros k st Sh Hk fuel Hf; (destruct fuel as [|fuel]; [lia|]); cbn [indset_loop]; unfold UNKNOWN.
  all: pose proof (after_fine nodes q cand nbrs Hm k) as (R & _).
  all: assert (Rs : forall a x, In a st -> In x a -> x = 0 \/ x = 1 \/ x = 2) by (intros a x Ia Ix; destruct (shows_covers st _ a x Sh Ia Ix) as (_ & _ & g & _ & _ & ->); apply R).
  all: destruct (Z.eqb_spec (max_state st) 2) as [E|E].
  - exfalso. apply (max_state_spec st Rs) in E as (a & Ia & I2). destruct (shows_covers st _ a 2 Sh Ia I2) as (s & i & g & G & _ & K).
    apply (after_decided nodes q cand nbrs Hm k g); [lia| |congruence]. destruct Hp as (_ & _ & _ & _ & _ & _ & Hd & _). apply (Hd s i g G).
  - exists st. split; [reflexivity|]. replace (length nodes) with k by lia. exact Sh.
  - destruct (iteration_step st _ Sh R) as (st' & Ei & Sh'). rewrite Ei. cbn [bind]. apply (IH (S k)); [exact Sh'|lia|lia].
  - exists st. split; [reflexivity|]. destruct Sh as [D Sh]. split; [exact D|]. intros s i g G. rewrite (after_stable q cand nbrs k (length nodes) g); [apply Sh; exact G|lia|].
    intros E2. apply E. apply (max_state_spec st Rs). destruct (Sh s i g G) as (a & A1 & A2). rewrite E2 in A2. exists a. split; eapply zget_In; eauto.
Qed.

Lemma find_finds fuel : (length nodes < fuel)%nat ->
  exists out, find_indset fuel inv shared oranks oidxs graphs quality global candidates = Ok out /\ per_copy oranks out /\
  forall s i g, goes_to global s i g -> goes_to out s i (if result nodes q cand nbrs g then 1 else 0).
Proof.
  intros Hf. pose proof Hp as (Own & L1 & L2 & C3 & [L4 C4] & Hg & Hd & Ho & Hn). unfold find_indset.
  match goal with |- context [tabulate (zlen graphs) ?F] => set (body := F) end.
  destruct (tabulate_rel (zlen graphs) body (fun s x => exists c, zget candidates s = Ok c /\ x = map (fun x => if x =? 0 then NOT_IN else UNKNOWN) c)) as (init & Ei & Li & Gi).
  { apply zlen_nonneg. }
  { intros s Hs. destruct (zget_in_range oranks s) as [a Ha]; [lia|]. destruct (zget_in_range graphs s) as [gr Hgr]; [lia|]. destruct (zget_in_range candidates s) as [c Hc]; [lia|].
    destruct (Hg s a gr Ha Hgr) as (_ & Ln & _). pose proof (C4 s a c Ha Hc). unfold body. rewrite Hgr, Hc. cbn [bind].
    replace (zlen c =? zlen (a2ab gr) - 1) with true by (symmetry; apply Z.eqb_eq; lia). cbn [negb]. eauto. }
  rewrite Ei. cbn [bind].
  assert (Sh : shows init (after q cand nbrs 0)).
  { split.
    - split; [lia|]. intros s a x Ha Hx. destruct (Gi s x Hx) as (c & Hc & ->). rewrite zlen_map, (C4 s a c Ha Hc). lia.
    - intros s i g G. destruct (Hd s i g G) as (_ & _ & c & (cl & K1 & K2) & K3). pose proof (zget_bounds _ _ _ K1) as Bs. destruct (zget_in_range init s) as [x Hx]; [lia|].
      exists x. split; [exact Hx|]. destruct (Gi s x Hx) as (cl' & K1' & ->). rewrite K1 in K1'. inversion K1'; subst cl'. cbn [after]. unfold start.
      erewrite zget_map_ok by exact K2. f_equal. unfold NOT_IN, UNKNOWN. destruct (Z.eqb_spec c 0) as [E|E]; destruct (cand g); try reflexivity; exfalso; [apply K3 in E; auto|].
      apply K3 in E. discriminate. }
  destruct (loop_ends (length nodes) 0 init Sh ltac:(lia) fuel Hf) as (out & Eo & [Do So]). exists out. split; [exact Eo|]. split.
  - destruct Do as [D1 D2]. split; [exact D1|]. intros s a b Ha Hb. rewrite (D2 s a b Ha Hb). lia.
  - intros s i g G. pose proof (So s i g G) as K. unfold result. pose proof (after_fine nodes q cand nbrs Hm (length nodes)) as (R & _). destruct (Hd s i g G) as (Ng & _ & _).
    pose proof (after_decided nodes q cand nbrs Hm (length nodes) g (le_n _) Ng) as D.
    destruct (Z.eqb_spec (after q cand nbrs (length nodes) g) 1) as [E|E]; [rewrite E in K; exact K|].
    destruct (R g) as [E0|[E0|E0]]; [rewrite E0 in K; exact K|congruence|congruence].
Qed.
End world.

Lemma find_greedy nodes q cand nbrs : mutual nodes nbrs ->
  exists chosen, greedy nodes q cand nbrs chosen /\
  forall inv shared oranks oidxs graphs quality global candidates fuel, inverter inv -> zlen oranks <= i32_max + 1 ->
  presents nodes q cand nbrs shared oranks oidxs graphs quality global candidates -> (length nodes < fuel)%nat ->
  exists out, find_indset fuel inv shared oranks oidxs graphs quality global candidates = Ok out /\ per_copy oranks out /\
  forall s i g, goes_to global s i g -> goes_to out s i (if chosen g then 1 else 0).
Proof.
  intros Hm. exists (result nodes q cand nbrs). split; [apply result_greedy; exact Hm|]. intros. apply find_finds; assumption.
Qed.
